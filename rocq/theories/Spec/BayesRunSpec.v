(** What a converted GaussianNB is measured against: the likelihood of the row under the normal distributions that were
    fitted, and how far fixed-point numbers and printing can take the scores away from it. *)
From Coq Require Import ZArith List Bool Reals.
From Flocq Require Import Core BinarySingleNaN.
From Verif.Base Require Import Res Float RealSum.
From Verif.Model Require Import BayesRun.
From Verif.Spec Require Import BayesSpec NetRunSpec.
Import ListNotations.
Open Scope Z_scope.

(** The density of the normal distribution, and its base-2 logarithm. *)
Definition normal_density (x mean std : R) : R := (exp (- ((x - mean) / std) ^ 2 / 2) / (std * sqrt (2 * PI)))%R.
Definition log_density (x mean std : R) : R := log2R (normal_density x mean std).

(** The number in row c, column i. *)
Definition at2 (m : list (list f64)) (c i : Z) : R := B2R (nth (Z.to_nat i) (nth (Z.to_nat c) m []) (fzero : f64)).
Definition at1 (row : list f64) (i : Z) : R := B2R (nth (Z.to_nat i) row (fzero : f64)).
Definition mean_of (f : fitted_nb) (c i : Z) : R := at2 (nb_theta f) c i.
Definition std_of (f : fitted_nb) (c i : Z) : R := sqrt (at2 (nb_var f) c i).
(** log2 of the likelihood of the row in class c. *)
Definition log_likelihood (f : fitted_nb) (row : list f64) (c : Z) : R :=
  sumr (zlen row) (fun i => log_density (at1 row i) (mean_of f c i) (std_of f c i)).

(** Distance from the mean in standard deviations, and how far it can be off: value and mean are cut to multiples of
    2^-16 after printing the value with 8 decimals, and so is the standard deviation. *)
Definition away_std (x mean std : R) : R := (Rabs (x - mean) / std)%R.
Definition away_err (x mean std : R) : R :=
  ((2 / 65536 + print8 x + 2 / 65536 * away_std x mean std) / (std - 2 / 65536))%R.
(** The same for the score of one feature. *)
Definition score_err (x mean std : R) : R :=
  let z := away_std x mean std in let e := away_err x mean std in
  (3 / 4 * (2 * z * e + e ^ 2) + (z + e + 2) ^ 2 / 700 + 2 / 65536)%R.
Definition class_err (f : fitted_nb) (row : list f64) (c : Z) : R :=
  sumr (zlen row) (fun i => score_err (at1 row i) (mean_of f c i) (std_of f c i)).

(** An estimator as fitted: nf features, 2 to 10 classes, means up to 16000, standard deviations from 2^-14 to 2^14. *)
Definition matrix_of (nc nf : Z) (m : list (list f64)) : Prop := zlen m = nc /\ Forall (fun r => zlen r = nf) m.
Definition good_nb (nc nf : Z) (f : fitted_nb) : Prop :=
  2 <= nc <= 10 /\ 1 <= nf <= 1000000 /\ matrix_of nc nf (nb_theta f) /\ matrix_of nc nf (nb_var f) /\
  Forall (Forall (fun v : f64 => is_finite v = true /\ (Rabs (B2R v) <= 16000)%R)) (nb_theta f) /\
  Forall (Forall (fun v : f64 => is_finite v = true /\ (bpow radix2 (-28) <= B2R v <= bpow radix2 28)%R)) (nb_var f).
(** Every value is up to 16000 in size and within 180 standard deviations of the mean, and the scores of a class add up
    to less than 32000. *)
Definition row_fits (nc : Z) (f : fitted_nb) (row : list f64) : Prop :=
  (forall i, 0 <= i < zlen row -> (Rabs (at1 row i) <= 16000)%R) /\
  (forall c i, 0 <= c < nc -> 0 <= i < zlen row ->
     (away_std (at1 row i) (mean_of f c i) (std_of f c i) + away_err (at1 row i) (mean_of f c i) (std_of f c i) <= 180)%R) /\
  (forall c, 0 <= c < nc -> (sumr (zlen row) (fun i =>
     3 / 4 * (away_std (at1 row i) (mean_of f c i) (std_of f c i) + away_err (at1 row i) (mean_of f c i) (std_of f c i)) ^ 2 + 20) <= 32000)%R).

(** log2 from the C library is accurate to 2^-20 for numbers from 2^-15 to 2^15. *)
Definition log2_accurate (log2_fn : f64 -> f64) : Prop :=
  forall x : f64, is_finite x = true -> (bpow radix2 (-15) <= B2R x <= bpow radix2 15)%R ->
    is_finite (log2_fn x) = true /\ (Rabs (B2R (log2_fn x) - log2R (B2R x)) <= bpow radix2 (-20))%R.
