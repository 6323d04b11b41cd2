(** What a converted EllipticEnvelope is measured against: the Mahalanobis distance with the fitted numbers themselves,
    and how far printing and rounding can take the results away from it. *)
From Coq Require Import String ZArith List Bool Reals.
From Flocq Require Import Core BinarySingleNaN.
From Verif.Base Require Import Res Float RealSum.
From Verif.Model Require Import Harness DistanceRun.
From Verif.Spec Require Import RealSpec DistanceSpec RoundingSpec NetRunSpec.
Import ListNotations.
Open Scope Z_scope.

(** An estimator as fitted: n features, an n by n matrix, finite numbers. *)
Definition good_envelope (n : Z) (f : fitted_envelope) : Prop :=
  zlen (fe_location f) = n /\ n < 46341 /\ zlen (fe_precision f) = n /\ Forall (fun r => zlen r = n) (fe_precision f) /\
  Forall good_number (fe_location f) /\ Forall (Forall good_number) (fe_precision f).
(** (x - location)^T precision (x - location) *)
Definition fitted_distance (f : fitted_envelope) (row : list f64) : R :=
  mahalanobis2 (map (map B2R) (fe_precision f)) (map B2R row) (map B2R (fe_location f)).

(** |x - m| for one feature, and how far it can be after printing both numbers. *)
Definition away (f : fitted_envelope) (row : list f64) (i : Z) : R := Rabs (vec (map B2R row) i - vec (map B2R (fe_location f)) i).
Definition far (f : fitted_envelope) (row : list f64) (i : Z) : R :=
  (away f row i + (print8 (vec (map B2R row) i) + print6 (vec (map B2R (fe_location f)) i)))%R.
Definition prec_at (f : fitted_envelope) (i j : Z) : R := mat (map (map B2R) (fe_precision f)) i j.
(** Sums of magnitudes. *)
Definition inner_mag (f : fitted_envelope) (row : list f64) (i : Z) : R :=
  sumr (zlen row) (fun j => big (prec_at f j i) * far f row j + tiny32)%R.
Definition outer_mag (f : fitted_envelope) (row : list f64) : R :=
  sumr (zlen row) (fun i => inner_mag f row i * far f row i + tiny32)%R.
(** Effect of printing the fitted numbers and the row, and of float32 rounding. *)
Definition distance_bound (f : fitted_envelope) (row : list f64) : R :=
  (sumr (zlen row) (fun i => sumr (zlen row) (fun j =>
      big (prec_at f i j) * far f row i * far f row j - Rabs (prec_at f i j) * away f row i * away f row j))
   + rel (Z.to_nat (2 * zlen row + 4)) * outer_mag f row)%R.
(** Nothing comes near overflow. *)
Definition distance_fits (f : fitted_envelope) (row : list f64) : Prop :=
  (forall i, 0 <= i < zlen row -> (far f row i <= max32)%R) /\
  (forall i, 0 <= i < zlen row -> (inner_mag f row i <= max32)%R) /\ (outer_mag f row <= max32)%R /\
  (Rabs (fitted_distance f row) + distance_bound f row <= IZR (2 ^ 53))%R.
(** numpy calculates the distance of the row without raising FloatingPointError. *)
Definition numpy_fine (f : fitted_envelope) (row : list f64) : Prop :=
  exists p, np_squared_mahalanobis_distance row (fe_location f) (fe_precision f) = Ret p.
(** The same with the error of printing six decimals. *)
Definition printed_bound (f : fitted_envelope) (row : list f64) : R :=
  (distance_bound f row + 500001 / 1000000000000 + (Rabs (fitted_distance f row) + distance_bound f row) / 9007199254740992)%R.

(** The answer of predict: 1 (inlier) when minus the distance is above offset_ by more than the error, -1 (outlier) when it
    is below by more than the error; one of the two in between. *)
Definition decided (f : fitted_envelope) (row : list f64) (y : Z) : Prop := (y = 1 \/ y = -1) /\
  ((printed_bound f row < - fitted_distance f row - B2R (fe_offset f))%R -> y = 1) /\
  ((- fitted_distance f row - B2R (fe_offset f) < - printed_bound f row)%R -> y = -1).

(** Zero, or between 2^-140 (about 7e-43) and 2^126 (about 8.5e37) in magnitude. *)
Definition moderate (x : f64) : Prop :=
  is_finite x = true /\ (B2R x = 0%R \/ (bpow radix2 (-140) <= Rabs (B2R x))%R) /\ (Rabs (B2R x) <= bpow radix2 126)%R.
