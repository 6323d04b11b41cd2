(** The discrete Fourier transform, written with real numbers:
    X[k] = sum over j of (xr[j] + i xi[j]) exp(-2 pi i j k / n). *)
From Coq Require Import ZArith Reals List.
From Flocq Require Import Core BinarySingleNaN.
From Verif.Base Require Import Res Float Arith.
From Verif.Model Require Import Common Fft.
From Verif.Spec Require Import RealSpec.
Import ListNotations.

Definition entry (x : list R) (j : Z) : R := nth (Z.to_nat j) x 0%R.
Definition theta (n j k : Z) : R := (2 * PI * IZR j * IZR k / IZR n)%R.
Definition dft_re (n : Z) (xr xi : list R) (k : Z) : R :=
  rsum (map (fun j => entry xr j * cos (theta n j k) + entry xi j * sin (theta n j k))%R (zrange n)).
Definition dft_im (n : Z) (xr xi : list R) (k : Z) : R :=
  rsum (map (fun j => entry xi j * cos (theta n j k) - entry xr j * sin (theta n j k))%R (zrange n)).

(** The absolute value of the complex number x + i y. *)
Definition modulus (x y : R) : R := sqrt (x * x + y * y)%R.

(** Exact trigonometry. *)
Definition real_trig : trig real_arith := mk_trig real_arith (fun z => Fin (IZR z)) (lift1 cos) (lift1 sin)
  real_arith (fun z => Fin (IZR z)) (Fin PI) (lift1 cos) (fun x => x).

Open Scope Z_scope.
(** y is x with its lowest m bits in the opposite order (and nothing above). *)
Definition reversed (m x y : Z) : Prop :=
  0 <= y < 2 ^ m /\ forall i, 0 <= i < m -> Z.testbit y i = Z.testbit x (m - 1 - i).
(** Lengths the transform works on. *)
Definition power_of_two (n : Z) : Prop := exists m, 0 <= m /\ n = 2 ^ m.

(** ** float32 *)
Open Scope R_scope.
(** What is asked of the platform's cosf, sinf (float32) and cos (double): on the first turn they are within e. *)
Definition cosf_within (e : R) (f : f32 -> f32) : Prop :=
  forall x, is_finite x = true -> Rabs (B2R x) <= 4 -> is_finite (f x) = true /\ Rabs (B2R (f x) - cos (B2R x)) <= e.
Definition sinf_within (e : R) (f : f32 -> f32) : Prop :=
  forall x, is_finite x = true -> Rabs (B2R x) <= 4 -> is_finite (f x) = true /\ Rabs (B2R (f x) - sin (B2R x)) <= e.
Definition cos_within (e : R) (f : f64 -> f64) : Prop :=
  forall x, is_finite x = true -> Rabs (B2R x) <= 7 -> is_finite (f x) = true /\ Rabs (B2R (f x) - cos (B2R x)) <= e.
(** A list of float32 as real numbers. *)
Definition vals (x : list f32) : list R := map B2R x.
(** Entry k of a list of n numbers c is within e of g(k), and is finite. *)
Definition all_within (n : Z) (e : R) (c : list f32) (g : Z -> R) : Prop :=
  zlen c = n /\ Forall (fun x => is_finite x = true) c /\ forall k, (0 <= k < n)%Z -> Rabs (entry (vals c) k - g k) <= e.
(** Every sample re[j] + i im[j] is finite and has absolute value at most B. *)
Definition signal_bounded (n : Z) (B : R) (re im : list f32) : Prop :=
  zlen re = n /\ zlen im = n /\ Forall (fun x => is_finite x = true) re /\ Forall (fun x => is_finite x = true) im /\
  forall j, (0 <= j < n)%Z -> modulus (entry (vals re) j) (entry (vals im) j) <= B.
(** far from overflow, far above underflow *)
Definition fft_scale (n : Z) (B : R) : Prop := bpow radix2 (-120) <= B /\ IZR n * B <= bpow radix2 100.
