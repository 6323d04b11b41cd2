(** Soft voting: the mean, over the trees, of the class proportions of the leaves reached. *)
From Coq Require Import ZArith List Bool Reals.
From Flocq Require Import Core BinarySingleNaN.
From Verif.Base Require Import Res CInt Float.
From Verif.Model Require Import TreesConvert TreesC TreesWrapper.
From Verif.Spec Require Import TreesSpec ClassifierSpec.
Import ListNotations.
Open Scope Z_scope.

(** The row of class proportions tree [t] ends in with decisions [go]. *)
Definition tree_shares_by (go : Z -> pynum -> bool) (t : sktree pynum (list f64)) (row : list f64) : Prop :=
  sk_reaches t go 0 row.
(** What scikit-learn's predict_proba gives class [c]: the mean of the proportions. *)
Definition mean_share (rows : list (list f64)) (c : Z) : R :=
  (fold_right Rplus 0 (map (fun row => row_val row c) rows) / IZR (zlen rows))%R.
(** The error allowed with leaf_bits = [bits] and [nt] trees: half a level, a 255th (the scale to a byte rounds down),
    and the float32 sum. *)
Definition level_err (bits : Z) : R := ((/ 2 + / 1099511627776) / IZR (2 ^ bits - 2) + / 255)%R.
Definition soft_err (bits nt : Z) : R := (level_err bits + (IZR nt + 5) / 16777216)%R.
(** The table of leaves, one byte per class, has no more than 2^31-1 elements. *)
Definition table_fits (n : Z) (trees : sk_forest) : Prop :=
  n * fold_right Z.add 0 (map flat_size trees) <= 2147483647.
