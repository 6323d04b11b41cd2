(** A fitted nearest-neighbours estimator as a data set of integers. *)
From Coq Require Import ZArith List Reals.
From Flocq Require Import Core BinarySingleNaN.
From Verif.Base Require Import Res CInt Float.
From Verif.Model Require Import TreesConvert TreesC.
From Verif.Spec Require Import NeighborsSpec RunSpec.
Import ListNotations.
Open Scope Z_scope.

(** A Python number that is the integer z. *)
Definition int_num (v : pynum) (z : Z) : Prop :=
  match v with PyInt y => y = z | PyFloat x => is_finite x = true /\ B2R x = IZR z end.
(** The training rows and their labels are the integers of [items], in order. *)
Definition training_set (data : list (list pynum)) (labels : list pynum) (items : dataset) : Prop :=
  Forall2 (Forall2 int_num) data (map fst items) /\ Forall2 int_num labels (map snd items).

(** np.unique(y, return_inverse=True), as scikit-learn's fit uses it: [classes] are the different labels in
    increasing order, and code i is the position of label i among them. *)
Definition encoded (classes y codes : list Z) : Prop :=
  (forall i j a b, i < j -> zget classes i = Ret a -> zget classes j = Ret b -> a < b) /\
  (forall c, In c classes <-> In c y) /\
  Forall2 (fun l code => zget classes code = Ret l) y codes.
