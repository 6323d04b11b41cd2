(** What a converted Gaussian mixture is measured against: the mixture density with the fitted numbers themselves, and
    how far printing and rounding can take the results away from it. *)
From Coq Require Import String ZArith List Bool Reals.
From Flocq Require Import Core BinarySingleNaN.
From Verif.Base Require Import Res Float RealSum.
From Verif.Model Require Import MixtureRun.
From Verif.Spec Require Import RealSpec DistanceSpec MixtureSpec RoundingSpec NetRunSpec.
Import ListNotations.
Open Scope Z_scope.

(** The Cholesky factors of the estimator, on real numbers. *)
Definition fitted_chol (f : fitted_gmm) : rchol :=
  match gm_precisions_cholesky f with
  | Arr3 l => RFull (map (map (map B2R)) l)
  | Arr2 l => if String.eqb (gm_covariance_type f) "tied" then RTied (map (map B2R) l) else RDiag (map (map B2R) l)
  | Arr1 l => RSpherical (map B2R l)
  end.
(** covariance_type and the number of dimensions fit together. *)
Definition typed (f : fitted_gmm) : Prop :=
  match gm_precisions_cholesky f with
  | Arr3 _ => gm_covariance_type f = "full"%string
  | Arr2 _ => gm_covariance_type f = "tied"%string \/ gm_covariance_type f = "diag"%string
  | Arr1 _ => gm_covariance_type f = "spherical"%string
  end.
Definition chol_numbers (p : np_array) : list f64 :=
  match p with Arr1 l => l | Arr2 l => concat l | Arr3 l => concat (concat l) end.
(** An estimator as fitted: k components, n features, finite numbers, positive diagonals of the Cholesky factors. *)
Definition good_gmm (k n : Z) (f : fitted_gmm) : Prop :=
  1 <= k /\ 1 <= n /\ k * n * n < 2 ^ 31 /\ zlen (gm_means f) = k /\ Forall (fun r => zlen r = n) (gm_means f) /\
  typed f /\ shape_ok (fitted_chol f) k n /\ positive_chol (fitted_chol f) k n /\ zlen (gm_log_weights f) = k /\
  Forall (Forall good_number) (gm_means f) /\ Forall good_number (chol_numbers (gm_precisions_cholesky f)) /\
  Forall good_number (gm_log_weights f).

Section Fitted.
Context (f : fitted_gmm) (row : list f64).
Notation n := (zlen row).
Notation k := (zlen (gm_means f)).
(** weight times density of a component, and the density of the mixture, at the row *)
Definition fitted_weighted (c : Z) : R :=
  weighted (fitted_chol f) n (map (map B2R) (gm_means f)) (map B2R (gm_log_weights f)) (map B2R row) c.
Definition fitted_total : R :=
  total (fitted_chol f) n (map (map B2R) (gm_means f)) (map B2R (gm_log_weights f)) (map B2R row).
(** The probability that the row comes from component c. *)
Definition posterior (c : Z) : R := (fitted_weighted c / fitted_total)%R.

(** Entries: of the row, of the means, of the Cholesky factors as full matrices. *)
Definition x_at (p : Z) : R := vec (map B2R row) p.
Definition mean_at (c p : Z) : R := mat (map (map B2R) (gm_means f)) c p.
Definition chol_at (c p q : Z) : R :=
  match fitted_chol f with
  | RFull l => mat (nth (Z.to_nat c) l []) p q
  | RTied l => mat l p q
  | RDiag l => if p =? q then mat l c p else 0%R
  | RSpherical l => if p =? q then vec l c else 0%R
  end.
(** The logarithm of the determinant of the factor. *)
Definition log_det_at (c : Z) : R := sumr n (fun q => ln (chol_diag (fitted_chol f) c q)).
Definition weight_at (c : Z) : R := vec (map B2R (gm_log_weights f)) c.

(** How far a number written by str(), read by strtod and stored as float can be from the number. *)
Definition argv_err (v : R) : R := (Rabs v / 16777215 + bpow radix2 (-140))%R.

(** [ge] and [gl] are the errors of expf and logf, [gd] the error of the logarithms of the determinants. *)
Context (ge gl gd : R).
(** One coordinate of L^T (x - mean); how far printing takes it away; the sum of the magnitudes. *)
Definition y_at (c q : Z) : R := sumr n (fun p => (x_at p - mean_at c p) * chol_at c p q)%R.
Definition y_off (c q : Z) : R :=
  sumr n (fun p => (Rabs (x_at p - mean_at c p) + (argv_err (x_at p) + print6 (mean_at c p))) * big (chol_at c p q)
                   - Rabs (x_at p - mean_at c p) * Rabs (chol_at c p q))%R.
Definition y_mag (c q : Z) : R :=
  (sumr n (fun p => (Rabs (x_at p) + argv_err (x_at p)) * big (chol_at c p q) + tiny32)
   + sumr n (fun p => big (mean_at c p) * big (chol_at c p q) + tiny32))%R.
(** The squared length: sum of the magnitudes, and error with float32 rounding. *)
Definition square_mag (c : Z) : R := sumr n (fun q => y_mag c q * y_mag c q + tiny32)%R.
Definition square_err (c : Z) : R :=
  (sumr n (fun q => 2 * Rabs (y_at c q) * y_off c q + y_off c q * y_off c q)
   + rel (Z.to_nat (3 * n + 5)) * square_mag c)%R.
(** Logarithm of weight times density of a component: sum of the magnitudes, and error. *)
Definition det_off (c : Z) : R := (gd + print6 (Rabs (log_det_at c) + gd))%R.
Definition component_mag (c : Z) : R :=
  (IZR n + square_mag c + (Rabs (log_det_at c) + det_off c) + big (weight_at c))%R.
Definition component_err (c : Z) : R :=
  (square_err c / 2 + det_off c + print6 (weight_at c) + 4 * u24 * component_mag c + IZR n / 2 * (1 / 10000000000000))%R.
Definition mixture_mag : R := (2 * maxl (map component_mag (zrange k)))%R.
Definition mixture_err : R := maxl (map component_err (zrange k)).
(** Error of the score (logarithm of the density) and of the probabilities. *)
Definition score_bound : R :=
  (mixture_err + (u24 * (mixture_mag + IZR k + gl) + (gl + 2 * softmax_sum_err ge k)))%R.
Definition proba_bound : R := softmax_err ge gl k mixture_mag mixture_err.
(** Nothing comes near overflow, and the exponentials are accurate. *)
Definition mixture_fits : Prop := softmax_small ge gl k mixture_mag.
(** sklearn gives the logarithms of the determinants with an error of at most [gd]. *)
Definition log_dets_good (log_dets : list f64) : Prop :=
  zlen log_dets = k /\ forall c, 0 <= c < k ->
    is_finite (nth (Z.to_nat c) log_dets (fzero : f64)) = true /\
    (Rabs (B2R (nth (Z.to_nat c) log_dets (fzero : f64)) - log_det_at c) <= gd)%R /\ (Rabs (log_det_at c) + gd <= bpow radix2 126)%R.
End Fitted.
