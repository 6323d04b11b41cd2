(** Filterbanks and mel spectra. *)
From Coq Require Import ZArith Reals List Bool.
From Flocq Require Import Core.
From Verif.Base Require Import Res CInt Arith RealSum.
From Verif.Model Require Import Common Vector Fft Audio.
From Verif.Spec Require Import RealSpec RoundingSpec FftSpec.
Import ListNotations.
Open Scope R_scope.

(** The product of a matrix (a list of rows) with the input. *)
Definition dense (mels : list (list R)) (x : list R) : list R :=
  map (fun row => sumr (zlen row) (fun j => entry x j * entry row j)) mels.
(** A filter of the form zeros, nonzero coefficients, zeros. *)
Definition band (row : list R) : Prop := exists a b c,
  row = repeat 0 a ++ b ++ repeat 0 c /\ b <> [] /\ Forall (fun v => v <> 0) b.

(** Exact library functions. *)
Definition log10R (x : R) : R := ln x / ln 10.
Definition pow10R (x : R) : R := exp (x * ln 10).
Definition floorR (x : xreal) : res Z :=
  match x with
  | Fin r => let z := Zfloor r in if (- 2 ^ 31 <=? z)%Z && (z <? 2 ^ 31)%Z then Ret z else Err BadCast
  | _ => Err BadCast
  end.
Definition real_mathf : mathf real_arith := mk_mathf real_arith (lift1 log10R) (lift1 pow10R) (lift1 (fun x => x ^ 2)) floorR.

(** The mel scale (HTK): mel(f) = 2595 log10(1 + f/700). *)
Definition melR (f : R) : R := 2595 * log10R (1 + f / 700).
(** Frequencies evenly spaced on the mel scale: the n-th of n_mels + 2 from fmin to fmax. *)
Definition evenly (fmin fmax : R) (n_mels n : Z) (f : R) : Prop :=
  -700 < f /\ melR f = melR fmin + IZR n * ((melR fmax - melR fmin) / IZR (n_mels + 1)).
(** The triangle rising from a to its top at b and falling to c. *)
Definition triangle (a b c f : R) : R := Rmax 0 (Rmin ((f - a) / (b - a)) ((c - f) / (c - b))).
(** Frequency of bin k of a transform of length n_fft. *)
Definition bin_freq (samplerate n_fft k : Z) : R := IZR k * IZR samplerate / IZR n_fft.
(** Response of the triangular filter (a, b, c) to a spectrum. *)
Definition tri_response (samplerate n_fft : Z) (spec : list R) (a b c : R) : R :=
  sumr (1 + n_fft / 2) (fun k => entry spec k * triangle a b c (bin_freq samplerate n_fft k)).

(** Hann window of length n, and the power spectrum (bins 0 .. n/2) of a windowed block. *)
Definition hann (n i : Z) : R := (1 - cos (2 * PI * IZR i / IZR (n - 1))) / 2.
Definition windowed (x : list R) : list R := map (fun i => hann (zlen x) i * entry x i) (zrange (zlen x)).
Definition power (x : list R) (k : Z) : R :=
  let n := zlen x in let z := repeat 0 (length x) in
  ((dft_re n x z k) ^ 2 + (dft_im n x z k) ^ 2) / IZR n.

(** No bin lies above f by at most a fraction 1/n_fft. *)
Definition clear_of_bins (samplerate n_fft : Z) (f : R) : Prop :=
  forall k, (0 <= k <= n_fft / 2)%Z -> ~ (f < bin_freq samplerate n_fft k <= f * (1 + / IZR n_fft)).
(** The response of each of the n_mels triangular filters. *)
Definition mel_response (samplerate n_fft n_mels : Z) (fmin fmax : R) (spec out : list R) : Prop :=
  zlen out = n_mels /\
  forall m a b c, (1 <= m <= n_mels)%Z -> evenly fmin fmax n_mels (m - 1) a -> evenly fmin fmax n_mels m b -> evenly fmin fmax n_mels (m + 1) c ->
    entry out (m - 1) = tri_response samplerate n_fft spec a b c.
(** The squared real parts of the windowed block's transform, over its length. *)
Definition re_power (x : list R) : list R :=
  map (fun k => dft_re (zlen x) (windowed x) (repeat 0 (length x)) k ^ 2 / IZR (zlen x)) (zrange (1 + zlen x / 2)).

(** ** Sparse filterbanks with given indices *)
Open Scope Z_scope.
Definition nthz (l : list Z) (i : Z) : Z := nth (Z.to_nat i) l 0.
(** Number of coefficients of filter i, and of all filters before it. *)
Definition width (starts stops : list Z) (i : Z) : Z := Z.max 0 (nthz stops i - nthz starts i + 1).
Definition offset (starts stops : list Z) (i : Z) : Z := fold_left (fun o j => o + width starts stops j) (zrange i) 0.
(** The indices stay inside the input, the coefficients are enough, and their number is an int. *)
Definition bank_inside (starts stops : list Z) (n_input n_coeffs : Z) : Prop :=
  zlen stops = zlen starts /\
  (forall i, 0 <= i < zlen starts -> 0 < width starts stops i -> 0 <= nthz starts i /\ nthz stops i < n_input) /\
  offset starts stops (zlen starts) <= n_coeffs /\ offset starts stops (zlen starts) < 2 ^ 31.
(** The answer of filter i: coefficients times inputs; and the same with absolute values. *)
Definition bank_value (starts stops : list Z) (c x : list R) (i : Z) : R :=
  sumr (width starts stops i) (fun d => entry x (nthz starts i + d) * entry c (offset starts stops i + d))%R.
Definition bank_mag (starts stops : list Z) (c x : list R) (i : Z) : R :=
  sumr (width starts stops i) (fun d => Rabs (entry x (nthz starts i + d)) * Rabs (entry c (offset starts stops i + d)) + tiny32)%R.
