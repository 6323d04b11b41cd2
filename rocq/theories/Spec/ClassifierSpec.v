(** What the fitted scikit-learn model is, and what it decides; independent of the converter. *)
From Coq Require Import ZArith List Bool Reals.
From Flocq Require Import Core BinarySingleNaN.
From Verif.Base Require Import Res CInt Float.
From Verif.Model Require Import TreesConvert TreesC TreesWrapper.
From Verif.Spec Require Import TreesSpec TreesCSpec VoteSpec.
Import ListNotations.
Open Scope Z_scope.

(** Element [i] of a row of numbers, as a real. *)
Definition row_val (row : list f64) (i : Z) : R := B2R (nth (Z.to_nat i) row fzero).

(** A fitted forest: at least one tree, every tree well formed over [nf] features, and every
    output row satisfies [P]. *)
Record fitted (nf : Z) (P : list f64 -> Prop) (trees : sk_forest) : Prop := {
  ft_nonempty : trees <> [];
  ft_features : 1 <= nf;
  ft_trees : Forall (wf_sktree nf) trees;
  ft_rows : Forall (fun t => Forall (Forall P) (sk_value t)) trees }.

(** Rows of a classifier with [n] classes (counts or proportions). *)
Definition class_row (n : Z) (row : list f64) : Prop :=
  zlen row = n /\ Forall (fun x => is_finite x = true) row.
(** ... and as class proportions, needed for soft voting. *)
Definition proba_row (n : Z) (row : list f64) : Prop :=
  zlen row = n /\ Forall (fun x => is_finite x = true /\ (0 <= B2R x <= 1)%R) row.
(** Row of a regressor. *)
Definition value_row (row : list f64) : Prop :=
  exists x, row = [x] /\ is_finite x = true.

(** The class of a row: the first maximal element. *)
Definition row_class (row : list f64) (c : Z) : Prop := first_max (zlen row) (row_val row) c.

(** The class tree [t] votes for when decisions are feature < int(threshold). *)
Definition tree_class (features : list Z) (t : sktree pynum (list f64)) (c : Z) : Prop :=
  exists row, sk_reaches t (go_lt features) 0 row /\ row_class row c.

(** A model small enough for the C tables: at most 127 features, at most 32767 entries in total,
    and integer parts of thresholds within int16_t. *)
Definition small_model (nf : Z) (trees : sk_forest) : Prop :=
  nf <= 127 /\ fold_right Z.add 0 (map flat_size trees) <= 32767 /\
  Forall (fun t => Forall (fun th => exists k, py_int th = Ret k /\ int16_ok k) (sk_threshold t)) trees.

(** The node table of a converted model. *)
Definition forest_nodes {T L} (f : forest (T:=T) (L:=L)) : list (dnode T) := fst (fst f).

(** Bytes of the generated tables: sizeof(EmlTreesNode) is 8 (int8_t, a padding byte and three
    int16_t), leaves are bytes. *)
Definition table_bytes (m : eml_trees) : Z := 8 * zlen (et_nodes m) + zlen (et_leaves m).
