(** Specification used for the generated C tables. *)
From Coq Require Import ZArith List Bool.
From Verif.Base Require Import Res CInt.
From Verif.Model Require Import TreesConvert TreesC.
Import ListNotations.
Open Scope Z_scope.

(** The decision of the generated code: feature < int(threshold). *)
Definition go_lt (features : list Z) (f : Z) (th : pynum) : bool :=
  match zget features f, py_int th with
  | Ret x, Ret k => x <? k
  | _, _ => false
  end.

(** A reference from node [i] fits the int16_t field (forward references are relative). *)
Definition child_fits (i c : Z) : Prop :=
  (0 <= c -> c - i <= 32767) /\ (c < 0 -> -32768 <= c).

(** All fields of the node table fit EmlTreesNode, and the table size fits int32_t. *)
Definition fits_c (nodes : list (dnode pynum)) : Prop :=
  zlen nodes <= 2147483647 /\
  forall i n, zget nodes i = Ret n ->
    d_feature n <= 127 /\
    (exists k, py_int (d_value n) = Ret k /\ int16_ok k) /\
    child_fits i (d_left n) /\ child_fits i (d_right n).
