(** Model of the cost and depth metrics of emlearn/evaluate/trees.py. *)
From Coq Require Import ZArith List Bool Reals.
From Verif.Base Require Import Res.
From Verif.Model Require Import TreesConvert.
Import ListNotations.
Open Scope Z_scope.
Open Scope res_scope.

Section Cost.
Context {T V Row : Type} (go : Row -> Z -> T -> bool).

(** One row of scikit-learn's tree.decision_path(X) (called at evaluate/trees.py:110): the numbers of the nodes the row
    passes through, from the root to its leaf. The decision taken at a node is the parameter [go]; the loop of
    scikit-learn ends at a node whose left child is -1. The fuel is one more than the number of nodes. *)
Fixpoint decision_path (fuel : nat) (t : sktree T V) (row : Row) (i : Z) : res (list Z) :=
  match fuel with
  | O => Err NoFuel
  | S fuel' =>
      let* l := zget (sk_left t) i in
      let* r := zget (sk_right t) i in
      if l =? -1 then Ret [i]
      else
        let* f := zget (sk_feature t) i in
        let* th := zget (sk_threshold t) i in
        let* rest := decision_path fuel' t row (if go row f th then l else r) in
        Ret (i :: rest)
  end.

(** evaluate/trees.py:110-111  t = numpy.sum(path, axis=1): path has a one for every node a row passes through. *)
Definition path_sums (t : sktree T V) (X : list Row) : res (list Z) :=
  mapM (fun row => let* p := decision_path (S (Z.to_nat (sk_node_count t))) t row 0 in Ret (zlen p)) X.

(** evaluate/trees.py:112  numpy.mean(t), in exact arithmetic. scikit-learn refuses an empty X. *)
Definition mean_of (l : list Z) : res R :=
  match l with
  | [] => Err ValueError_
  | _ => Ret (fold_right (fun x s => (IZR x + s)%R) 0%R l / IZR (zlen l))%R
  end.

(** evaluate/trees.py:92-114  compute_cost_estimate, for the list of trees of the model (get_tree_estimators). *)
Definition compute_cost_estimate (trees : list (sktree T V)) (X : list Row) : res R :=
  foldM (fun total t =>
      let* ts := path_sums t X in
      let* m := mean_of ts in
      Ret (total + m)%R) 0%R trees.

(** evaluate/trees.py:85-90  count_trees *)
Definition count_trees (trees : list (sktree T V)) : Z := zlen trees.
End Cost.
