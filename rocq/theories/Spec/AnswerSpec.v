(** The answers of a saved classifier, in terms of the trees of the scikit-learn model. *)
From Coq Require Import ZArith List Reals.
From Flocq Require Import Core BinarySingleNaN.
From Verif.Base Require Import Res CInt Float.
From Verif.Model Require Import TreesConvert TreesC TreesWrapper.
From Verif.Spec Require Import TreesSpec VoteSpec ClassifierSpec HarnessSpec RunSpec RealSpec SoftSpec.
Import ListNotations.
Open Scope Z_scope.

(** [out'] is [out] with each of its first [n] places replaced by the proportion of the trees that vote for that class, rounded to
    float32.  [cs] is the class each tree votes for. *)
Definition fractions (n : Z) (cs : list Z) (out out' : list f32) : Prop := zlen out' = zlen out /\
  (forall c, 0 <= c < n -> exists y, zget out' c = Ret y /\ is_finite y = true /\ B2R y = round radix2 (FLT_exp (-149) 24) ZnearestE (IZR (votes cs c) / IZR (zlen cs))) /\
  forall i, n <= i -> zget out' i = zget out i.
(** [c] has the largest mean proportion, up to the rounding of the leaves; it is -1 only if all the means are within that
    rounding of zero.  [rows] is the row of class proportions each tree ends in. *)
Definition chosen (n bits : Z) (rows : list (list f64)) (c : Z) : Prop :=
  (c = -1 /\ forall k, 0 <= k < n -> (mean_share rows k <= soft_err bits (zlen rows))%R) \/
  (0 <= c < n /\ forall k, 0 <= k < n -> (mean_share rows k <= mean_share rows c + 2 * soft_err bits (zlen rows))%R).
(** [out'] is [out] with each of its first [n] places replaced by the mean proportion of that class up to that rounding. *)
Definition means_in (n bits : Z) (rows : list (list f64)) (out out' : list f32) : Prop := zlen out' = zlen out /\
  (forall k, 0 <= k < n -> exists y, zget out' k = Ret y /\ is_finite y = true /\ (Rabs (B2R y - mean_share rows k) <= soft_err bits (zlen rows))%R) /\
  forall i, n <= i -> zget out' i = zget out i.
(** [go] compares a row of finite float32 numbers with the thresholds, each written with six decimals and read back. *)
Definition decides_float (features : list f32) (trees : sk_forest) (go : Z -> pynum -> bool) : Prop :=
  forall tree f th x, In tree trees -> In th (sk_threshold tree) -> zget features f = Ret x -> is_finite x = true ->
    exists k : f32, is_finite k = true /\ through_decimals 6 (num_val th) k /\ (go f th = true <-> (B2R x < B2R k)%R).
(** [y] is near the mean of the values [xs] the trees end in, none of them larger than [B]. *)
Definition near_mean (B : R) (xs : list f64) (y : f32) : Prop := is_finite y = true /\
  (Rabs (B2R y - fold_right Rplus 0 (map B2R xs) / IZR (zlen xs)) <= (IZR (zlen xs) + 5) * B / 16777216 + 11 / 10000000)%R.
