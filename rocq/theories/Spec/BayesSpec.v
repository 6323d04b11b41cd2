(** What the Naive Bayes classifier is supposed to compute, on Q16.16 numbers. *)
From Coq Require Import ZArith List Bool Reals.
From Flocq Require Import Core BinarySingleNaN.
From Verif.Base Require Import Res CInt Float.
From Verif.Model Require Import Bayes.
Import ListNotations.
Open Scope Z_scope.

(** [r] is n/d rounded to the nearest integer, halves away from zero. *)
Definition nearest_away (n d r : Z) : Prop :=
  2 * Z.abs (r * d - n) <= Z.abs d /\
  (2 * Z.abs (r * d - n) = Z.abs d -> Z.abs n < Z.abs (r * d)).

(** The base-2 logarithm of a real number. *)
Definition log2R (x : R) : R := (ln x / ln 2)%R.

(** A number as Q16.16: x * 2^16, fraction dropped. *)
Definition q16 {prec emax} (x : binary_float prec emax) : Z := Ztrunc (B2R x * 65536).
Definition q16_fits {prec emax} (x : binary_float prec emax) : Prop :=
  is_finite x = true /\ (Rabs (B2R x) < 32768)%R.

(** |value - mean| / std in Q16.16, rounded to nearest. *)
Definition deviation (value mean std : Z) : Z := (Z.abs (value - mean) * 65536 + std / 2) / std.

(** log2 of the normal density: -(d^2)/(2 ln 2) - log2(sqrt(2 pi)) - log2 std, with
    -185/256 = -0.7227 for -1/(2 ln 2) = -0.7213, and -86884/65536 = -1.3257 for -log2(sqrt(2 pi)). *)
Definition feature_score (value : Z) (s : summary) : Z :=
  let d := deviation value (s_mean s) (s_std s) in
  -185 * ((d / 256) * (d / 256) / 256) - 86884 - s_stdlog2 s.

(** The summary of a feature for a class. *)
Definition the_summary (model : bayes_model) (class feature : Z) : summary :=
  nth (Z.to_nat (class * bm_n_features model + feature)) (bm_summaries model) (mk_summary 0 0 0).

(** Sum of the scores of the first n features. *)
Fixpoint sum_scores (model : bayes_model) (values : list f32) (class : Z) (n : nat) : Z :=
  match n with
  | O => 0
  | S n' => sum_scores model values class n' +
            feature_score (q16 (nth n' values B754_nan)) (the_summary model class (Z.of_nat n'))
  end.
Definition class_total (model : bayes_model) (values : list f32) (class : Z) : Z :=
  sum_scores model values class (length values).

(** The table has one summary per class and feature. *)
Definition model_ok (model : bayes_model) : Prop :=
  0 <= bm_n_features model /\
  zlen (bm_summaries model) = bm_n_classes model * bm_n_features model /\
  zlen (bm_summaries model) < 2 ^ 31.

(** All intermediate numbers fit: in particular every value is less than 181 standard deviations
    from every class mean (11863296 = 46341 * 256). *)
Definition feature_fits (value : Z) (s : summary) : Prop :=
  1 <= s_std s /\ int32_ok (s_std s) /\ int32_ok (value - s_mean s) /\
  deviation value (s_mean s) (s_std s) < 11863296 /\ int32_ok (feature_score value s).
Definition input_fits (model : bayes_model) (values : list f32) : Prop :=
  forall class i, 0 <= class < bm_n_classes model -> (i < length values)%nat ->
    q16_fits (nth i values B754_nan) /\
    feature_fits (q16 (nth i values B754_nan)) (the_summary model class (Z.of_nat i)) /\
    int32_ok (sum_scores model values class (S i)).

(** The first class with the highest total. *)
Definition best_class (model : bayes_model) (values : list f32) (c : Z) : Prop :=
  0 <= c < bm_n_classes model /\
  (forall d, 0 <= d < bm_n_classes model -> class_total model values d <= class_total model values c) /\
  (forall d, 0 <= d < c -> class_total model values d < class_total model values c).
