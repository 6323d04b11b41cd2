(** Nearest neighbours, independent of the code. *)
From Coq Require Import ZArith List Permutation.
From Verif.Base Require Import Res.
From Verif.Spec Require Import VoteSpec.
Import ListNotations.
Open Scope Z_scope.

(** Sum of a list. *)
Definition zsum (l : list Z) : Z := fold_right Z.add 0 l.

(** Squared Euclidean distance. *)
Definition sq_dist (a b : list Z) : Z :=
  zsum (map (fun p => (fst p - snd p) * (fst p - snd p)) (combine a b)).

(** A data set: rows with their labels. *)
Definition dataset : Type := list (list Z * Z).

(** [sel] are the indices of [k] different items such that no other item is strictly nearer
    to [x], nearness being measured by [dist]. *)
Definition k_nearest (dist : list Z -> list Z -> Z) (items : dataset) (x : list Z) (k : Z)
    (sel : list Z) : Prop :=
  zlen sel = k /\ NoDup sel /\ (forall i, In i sel -> 0 <= i < zlen items) /\
  (forall i j ri li rj lj, In i sel -> ~ In j sel ->
     zget items i = Ret (ri, li) -> zget items j = Ret (rj, lj) -> dist x ri <= dist x rj).

(** Labels of the selected items. *)
Definition labels_of (items : dataset) (sel : list Z) : list Z :=
  map (fun i => match zget items i with Ret p => snd p | Err _ => 0 end) sel.

(** The integer part of the Euclidean distance. *)
Definition int_dist (a b : list Z) : Z := Z.sqrt (sq_dist a b).
