(** Number of decision nodes evaluated by a tree, for scikit-learn and for the converted tables. *)
From Coq Require Import ZArith List Bool Reals.
From Verif.Base Require Import Res.
From Verif.Model Require Import TreesConvert TreesC TreesWrapper.
From Verif.Spec Require Import TreesSpec ClassifierSpec.
Import ListNotations.
Open Scope Z_scope.

(** scikit-learn's walk from node [i] with decisions [go] evaluates [n] decision nodes. *)
Inductive evaluates {T V} (t : sktree T V) (go : Z -> T -> bool) : Z -> Z -> Prop :=
| evaluates_leaf i : zget (sk_left t) i = Ret (-1) -> zget (sk_right t) i = Ret (-1) -> evaluates t go i 0
| evaluates_node i l r f th n :
    zget (sk_left t) i = Ret l -> zget (sk_right t) i = Ret r -> ~ (l = -1 /\ r = -1) ->
    zget (sk_feature t) i = Ret f -> zget (sk_threshold t) i = Ret th ->
    evaluates t go (if go f th then l else r) n ->
    evaluates t go i (n + 1).

(** The same for the flat node array, from reference [c]. *)
Inductive flat_evaluates {T} (nodes : list (dnode T)) (go : Z -> T -> bool) : Z -> Z -> Prop :=
| flat_evaluates_leaf c : c < 0 -> flat_evaluates nodes go c 0
| flat_evaluates_node c d n :
    zget nodes c = Ret d ->
    flat_evaluates nodes go (if go (d_feature d) (d_value d) then d_left d else d_right d) n ->
    flat_evaluates nodes go c (n + 1).

(** The longest path from node [i] to a leaf: what scikit-learn calls max_depth, for i = 0. *)
Inductive depth {T V} (t : sktree T V) : Z -> Z -> Prop :=
| depth_leaf i : zget (sk_left t) i = Ret (-1) -> zget (sk_right t) i = Ret (-1) -> depth t i 0
| depth_node i l r dl dr :
    zget (sk_left t) i = Ret l -> zget (sk_right t) i = Ret r -> ~ (l = -1 /\ r = -1) ->
    depth t l dl -> depth t r dr -> depth t i (1 + Z.max dl dr).

(** The mean of the numbers of evaluations of the rows of a dataset. *)
Definition mean_evaluations (ns : list Z) : R := (fold_right (fun n s => IZR n + s) 0 ns / IZR (zlen ns))%R.

(** The models convert() accepts: hard voting, soft voting with leaf_bits 2 to 8, regression. *)
Definition convertible_model (nf n : Z) (trees : sk_forest) (classifier : bool) (lb : option Z) : Prop :=
  (classifier = true /\ In lb [None; Some 0; Some 1] /\ fitted nf (class_row n) trees) \/
  (classifier = true /\ (exists b, lb = Some b /\ 2 <= b <= 8) /\ fitted nf (proba_row n) trees) \/
  (classifier = false /\ In lb [None; Some 32] /\ fitted nf value_row trees).

(** The loop of eml_trees_predict_tree, started at [root], ends after exactly [k] passes through its body. *)
Definition takes (m : eml_trees) (features : list Z) (root k : Z) : Prop :=
  (forall fuel, k < Z.of_nat fuel -> exists e, predict_tree_loop fuel (et_nodes m) features root = Ret e) /\
  (forall fuel, Z.of_nat fuel <= k -> predict_tree_loop fuel (et_nodes m) features root = Err NoFuel).
