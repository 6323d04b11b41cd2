(** What a converted tree model returns for a matrix of rows, from predict() and predict_proba(). *)
From Coq Require Import ZArith List Bool Reals.
From Flocq Require Import Core BinarySingleNaN.
From Verif.Base Require Import Res CInt Float.
From Verif.Model Require Import TreesConvert TreesC TreesWrapper Harness.
From Verif.Spec Require Import TreesSpec TreesCSpec VoteSpec ClassifierSpec HarnessSpec.
Import ListNotations.
Open Scope Z_scope.

(** A row of integers within int16_t. *)
Definition int16_row (row : list f64) (features : list Z) : Prop :=
  Forall2 (fun v z => is_finite v = true /\ B2R v = IZR z /\ -32768 <= z <= 32767) row features.
(** A non-empty matrix of such rows, with nf columns. *)
Definition int16_rows (nf : Z) (X : list (list f64)) : Prop :=
  X <> [] /\ zlen X <= 2147483647 /\ Forall (fun row => zlen row = nf /\ exists features, int16_row row features) X.

(** The class tree [t] votes for with decisions [go], and the value of a regression tree. *)
Definition tree_class_by (go : Z -> pynum -> bool) (t : sktree pynum (list f64)) (c : Z) : Prop :=
  exists out, sk_reaches t go 0 out /\ row_class out c.
Definition tree_value_by (go : Z -> pynum -> bool) (t : sktree pynum (list f64)) (x : f64) : Prop :=
  sk_reaches t go 0 [x].

(** The number a Python number stands for. *)
Definition num_val (v : pynum) : R := match v with PyInt z => IZR z | PyFloat x => B2R x end.
(** scikit-learn's own decision for a row: feature <= threshold. *)
Definition go_sk (row : list f64) (f : Z) (th : pynum) : bool := Rle_bool (row_val row f) (num_val th).

(** Decision nodes of a tree. *)
Definition decision (t : sktree pynum (list f64)) (f : Z) (th : pynum) : Prop :=
  exists i l r, zget (sk_left t) i = Ret l /\ zget (sk_right t) i = Ret r /\ ~ (l = -1 /\ r = -1) /\
    zget (sk_feature t) i = Ret f /\ zget (sk_threshold t) i = Ret th.
(** No decision of the forest is taken on a feature equal to the integer part of the threshold (unless that lies above
    the threshold). *)
Definition clear_int16 (row : list f64) (trees : sk_forest) : Prop :=
  forall t f th, In t trees -> decision t f th ->
    row_val row f <> IZR (Ztrunc (num_val th)) \/ (num_val th < row_val row f)%R.
(** No decision of the forest is taken on a feature within the printing error of the threshold. *)
Definition clear_float (row : list f64) (trees : sk_forest) : Prop :=
  forall t f th, In t trees -> decision t f th ->
    (1 / 1000000 + (Rabs (row_val row f) + Rabs (num_val th)) / 16777216 < Rabs (row_val row f - num_val th))%R.

(** Integer parts of all thresholds lie within lo..hi. *)
Definition thresholds_within (lo hi : Z) (trees : sk_forest) : Prop :=
  Forall (fun t => Forall (fun th => exists k, py_int th = Ret k /\ lo <= k <= hi) (sk_threshold t)) trees.

(** Output rows of a regressor, with values up to B in size. *)
Definition value_within (B : R) (row : list f64) : Prop :=
  exists x, row = [x] /\ is_finite x = true /\ (Rabs (B2R x) <= B)%R.

(** A matrix of finite numbers up to 2^126 in size with nf columns, the text of each row at most 2046 characters. *)
Definition float_rows (nf : Z) (X : list (list f64)) : Prop :=
  X <> [] /\ zlen X <= 2147483647 /\
  Forall (fun row => zlen row = nf /\ Forall (fun v => is_finite v = true /\ (Rabs (B2R v) <= bpow radix2 126)%R) row /\
    zlen (serialize_row row) <= 2046) X.
(** Thresholds that are finite and up to 2^126 in size. *)
Definition float_thresholds (trees : sk_forest) : Prop :=
  Forall (fun t => Forall (fun th => match th with PyInt z => Z.abs z <= 2 ^ 53 | PyFloat x => is_finite x = true end /\
    (Rabs (num_val th) <= bpow radix2 126)%R) (sk_threshold t)) trees.
(** The decisions [go] on a row compare the value as it arrives (8 decimals) with the threshold as it is written
    (6 decimals). *)
Definition float_decisions (row : list f64) (trees : sk_forest) (go : Z -> pynum -> bool) : Prop :=
  exists ws : list f32, Forall2 (fun v w => is_finite w = true /\ through_decimals 8 (B2R v) w) row ws /\
  forall t f th w, In t trees -> In th (sk_threshold t) -> zget ws f = Ret w ->
    exists k : f32, is_finite k = true /\ through_decimals 6 (num_val th) k /\ (go f th = true <-> (B2R w < B2R k)%R).
