(** Accuracy of the signal functions in float32: properties C126 to C130. *)
From Coq Require Import ZArith List Bool Lia Reals Lra.
From Flocq Require Import Core BinarySingleNaN.
From Verif.Base Require Import Res CInt ListX Loops Float FloatOrder Arith Kernels RealSum.
From Verif.Model Require Import Common Vector Fft Audio.
From Verif.Spec Require Import RealSpec RoundingSpec FftSpec AudioSpec.
From Verif.Proof Require Import Fft FftReal FftTable AudioErr.
From Verif.Props Require Import Rounding.
Import ListNotations.
Open Scope R_scope.
Open Scope res_scope.

(** ** C126 *)
(** eml_fft_fill, whatever the table held, then eml_fft_forward, in float32 (the table's angle in double):
    every output is finite and within 2 log2(n) (e + 8 * 2^-24) n B of the DFT of the samples, where e bounds
    the error of cosf and sinf and B the absolute value of the complex samples. *)
Theorem C126_filled (ef lf tf cosf sinf : f32 -> f32) (ed ld td cosd : f64 -> f64) e n m B s0 c0 re im :
  cosf_within e cosf -> sinf_within e sinf -> 0 <= e <= / 128 -> (0 <= m)%Z -> n = (2 ^ m)%Z -> (n <= 2 ^ 31)%Z ->
  zlen s0 = (n / 2)%Z -> zlen c0 = (n / 2)%Z -> signal_bounded n B re im -> fft_scale n B ->
  let A := f32_arith ef lf tf in
  exists t re' im', eml_fft_fill A (c_trig ef lf tf cosf sinf ed ld td cosd) (mk_fft A (n / 2) s0 c0) n = Ret (EmlOk, t) /\
  eml_fft_forward A t re im n = Ret (EmlOk, re', im') /\ zlen re' = n /\ zlen im' = n /\
  Forall (fun x => is_finite x = true) re' /\ Forall (fun x => is_finite x = true) im' /\
  forall k, (0 <= k < n)%Z ->
    modulus (entry (vals re') k - dft_re n (vals re) (vals im) k) (entry (vals im') k - dft_im n (vals re) (vals im) k)
      <= 2 * IZR m * (e + 8 * u24) * (IZR n * B).
Proof. intros. apply fill_forward; assumption. Qed.
(** The same with any table, for instance one stored as constants. *)
Theorem C126_any_table (ef lf tf : f32 -> f32) n m (t : fft (f32_arith ef lf tf)) tau B re im :
  (0 <= m < 32)%Z -> n = (2 ^ m)%Z -> (fft_length _ t = n / 2)%Z ->
  all_within (n / 2) tau (fft_cos _ t) (fun k => cos (2 * PI * IZR k / IZR n)) ->
  all_within (n / 2) tau (fft_sin _ t) (fun k => sin (2 * PI * IZR k / IZR n)) -> 0 <= tau <= / 64 ->
  signal_bounded n B re im -> fft_scale n B ->
  exists re' im', eml_fft_forward _ t re im n = Ret (EmlOk, re', im') /\ zlen re' = n /\ zlen im' = n /\
  Forall (fun x => is_finite x = true) re' /\ Forall (fun x => is_finite x = true) im' /\
  forall k, (0 <= k < n)%Z ->
    modulus (entry (vals re') k - dft_re n (vals re) (vals im) k) (entry (vals im') k - dft_im n (vals re) (vals im) k)
      <= 2 * IZR m * (tau + 4 * u24) * (IZR n * B).
Proof. exact (forward_any ef lf tf n m t tau B re im). Qed.

(** There are functions as asked, with e = 2^-24; and 1, 2, 3, 4 (+ 4i, 3i, 2i, i) is such a signal. *)
Example C126_ex_libm : cosf_within u24 cosf_cr /\ sinf_within u24 sinf_cr /\ cos_within u24 cos_cr.
Proof. split; [exact cosf_cr_ok|]. split; [exact sinf_cr_ok|exact cos_cr_ok]. Qed.
Lemma fin_z z : (Z.abs z <= 1000)%Z -> is_finite (f_of_Z z : f32) = true /\ B2R (f_of_Z z : f32) = IZR z.
Proof. intros H. destruct (f_of_Z_exact (prec := 24) (emax := 128) z) as [V F]; [change (2 ^ 24)%Z with 16777216%Z; lia|]. split; [exact F|exact V]. Qed.
Lemma scale_ok n B : 1 <= B -> IZR n * B <= 1000000 -> fft_scale n B.
Proof.
  intros B1 NB. split.
  - apply Rle_trans with 1; [|exact B1]. change 1 with (bpow radix2 0). apply bpow_le. lia.
  - apply Rle_trans with 1000000; [exact NB|]. apply Rle_trans with (bpow radix2 20); [|apply bpow_le; lia]. change (bpow radix2 20) with 1048576. lra.
Qed.
Lemma sqrt_small a b : 0 <= b -> a <= b * b -> sqrt a <= b.
Proof. intros Hb H. rewrite <- (sqrt_Rsqr b Hb). apply sqrt_le_1_alt. exact H. Qed.
Definition zs (l : list Z) : list f32 := map (fun z => f_of_Z z : f32) l.
Lemma zs_vals l : Forall (fun z => (Z.abs z <= 1000)%Z) l -> vals (zs l) = map IZR l /\ Forall (fun x : f32 => is_finite x = true) (zs l).
Proof.
  intros H. unfold vals, zs. rewrite map_map. split.
  - apply map_ext_in. intros z Hz. rewrite Forall_forall in H. apply (fin_z z (H z Hz)).
  - apply Forall_map. eapply Forall_impl; [|exact H]. intros z Hz. apply (fin_z z Hz).
Qed.
Lemma zs_bound l b : (b <= 1000)%Z -> Forall (fun z => (Z.abs z <= b)%Z) l -> Forall (fun v : f32 => is_finite v = true /\ Rabs (B2R v) <= IZR b) (zs l).
Proof.
  intros Hb H. apply Forall_map. eapply Forall_impl; [|exact H]. intros z Hz. cbv beta in Hz. destruct (fin_z z ltac:(lia)) as [F V]. split; [exact F|].
  rewrite V, <- abs_IZR. apply IZR_le. exact Hz.
Qed.
Example C126_ex_signal : signal_bounded 4 5 (zs [1; 2; 3; 4]%Z) (zs [4; 3; 2; 1]%Z) /\ fft_scale 4 5.
Proof.
  split; [|apply scale_ok; lra].
  destruct (zs_vals [1; 2; 3; 4]%Z) as [V1 F1]; [repeat constructor; lia|]. destruct (zs_vals [4; 3; 2; 1]%Z) as [V2 F2]; [repeat constructor; lia|].
  split; [reflexivity|]. split; [reflexivity|]. split; [exact F1|]. split; [exact F2|]. rewrite V1, V2.
  intros j Hj. assert (j = 0 \/ j = 1 \/ j = 2 \/ j = 3)%Z as [->|[->|[->| ->]]] by lia; unfold entry, modulus; apply sqrt_small; change (Z.to_nat 0) with 0%nat; change (Z.to_nat 1) with 1%nat; change (Z.to_nat 2) with 2%nat; change (Z.to_nat 3) with 3%nat; cbn [nth map]; lra.
Qed.
(** So for these four samples the answers are within 0.0001 of the DFT. *)
Example C126_ex : exists t re' im',
  let A := f32_arith (fun x => x) (fun x => x) (fun x => x) in
  eml_fft_fill A (c_trig (fun x => x) (fun x => x) (fun x => x) cosf_cr sinf_cr (fun x => x) (fun x => x) (fun x => x) cos_cr) (mk_fft A 2 (zs [7; 7]%Z) (zs [8; 8]%Z)) 4 = Ret (EmlOk, t) /\
  eml_fft_forward A t (zs [1; 2; 3; 4]%Z) (zs [4; 3; 2; 1]%Z) 4 = Ret (EmlOk, re', im') /\
  forall k, (0 <= k < 4)%Z -> modulus (entry (vals re') k - dft_re 4 [1; 2; 3; 4] [4; 3; 2; 1] k) (entry (vals im') k - dft_im 4 [1; 2; 3; 4] [4; 3; 2; 1] k) <= / 10000.
Proof.
  destruct C126_ex_signal as [HB HS].
  destruct (C126_filled (fun x => x) (fun x => x) (fun x => x) cosf_cr sinf_cr (fun x => x) (fun x => x) (fun x => x) cos_cr u24 4 2 5 (zs [7; 7]%Z) (zs [8; 8]%Z) (zs [1; 2; 3; 4]%Z) (zs [4; 3; 2; 1]%Z)
    cosf_cr_ok sinf_cr_ok ltac:(lra) ltac:(lia) eq_refl ltac:(vm_compute; discriminate) eq_refl eq_refl HB HS) as (t & re' & im' & E & E' & _ & _ & _ & _ & D).
  exists t, re', im'. split; [exact E|]. split; [exact E'|]. intros k Hk. specialize (D k Hk).
  destruct (zs_vals [1; 2; 3; 4]%Z) as [V1 _]; [repeat constructor; lia|]. destruct (zs_vals [4; 3; 2; 1]%Z) as [V2 _]; [repeat constructor; lia|].
  rewrite V1, V2 in D. eapply Rle_trans; [exact D|]. lra.
Qed.

(** ** C127 *)
(** eml_audio.rfft(x) on 2^m samples. *)
Theorem C127_rfft (ef lf tf cosf sinf : f32 -> f32) (ed ld td cosd : f64 -> f64) e m B (x : list f32) :
  cosf_within e cosf -> sinf_within e sinf -> 0 <= e <= / 128 ->
  (0 <= m)%Z -> zlen x = (2 ^ m)%Z -> (zlen x < 2 ^ 31)%Z -> Forall (fun v => is_finite v = true /\ Rabs (B2R v) <= B) x -> fft_scale (zlen x) B ->
  exists y, rfft_py (f32_arith ef lf tf) (c_trig ef lf tf cosf sinf ed ld td cosd) x = Ret y /\ zlen y = zlen x /\ Forall (fun v => is_finite v = true) y /\
  forall k, (0 <= k < zlen x)%Z ->
    Rabs (entry (vals y) k - rsum (map (fun j => entry (vals x) j * cos (theta (zlen x) j k)) (zrange (zlen x))))
      <= 2 * IZR m * (e + 8 * u24) * (IZR (zlen x) * B).
Proof. apply rfft_err. Qed.
Example C127_ex_hyps : zlen (zs [1; -2; 3; 4; 0; 1; 1; 1]%Z) = (2 ^ 3)%Z /\
  Forall (fun v => is_finite v = true /\ Rabs (B2R v) <= 4) (zs [1; -2; 3; 4; 0; 1; 1; 1]%Z) /\ fft_scale 8 4.
Proof.
  split; [reflexivity|]. split; [|apply scale_ok; lra].
  apply (zs_bound _ 4); [lia|]. repeat constructor; lia.
Qed.

Lemma sumr2 g : sumr 2 g = g 0%Z + g 1%Z.
Proof. change 2%Z with (0 + 1 + 1)%Z. rewrite !sumr_S, sumr_0 by lia. change (0 + 1)%Z with 1%Z. lra. Qed.

(** ** C128 *)
(** eml_audio.sparse_filterbank with any indices: it returns exactly when no index leaves the input and there
    are enough coefficients, and then (exact arithmetic) gives each filter's sum. *)
Theorem C128_value_partial starts stops (c x : list R) : bank_inside starts stops (zlen x) (zlen c) ->
  sparse_filterbank_py real_arith (map Fin x) starts stops (map Fin c) = Ret (map (fun i => Fin (bank_value starts stops c x i)) (zrange (zlen starts))).
Proof. apply bank_real. Qed.
Theorem C128_only_inside A (input : list (num A)) starts stops lut out :
  sparse_filterbank_py A input starts stops lut = Ret out -> bank_inside starts stops (zlen input) (zlen lut).
Proof. apply bank_only. Qed.
(** starts and stops of different lengths are refused. *)
Theorem C128_lengths A (input : list (num A)) starts stops lut : zlen starts <> zlen stops ->
  sparse_filterbank_py A input starts stops lut = Err RuntimeError_.
Proof. intros H. unfold sparse_filterbank_py. destruct (Z.eqb_spec (zlen starts) (zlen stops)); [contradiction|reflexivity]. Qed.
(** But a stop beyond the input, or too few coefficients, is not refused: memory outside the arrays is read. *)
Theorem C128_outside_refuted A (a b : num A) :
  sparse_filterbank_py A [a; a] [0]%Z [2]%Z [b; b; b] = Err OutOfBounds /\ sparse_filterbank_py A [a; a] [0]%Z [1]%Z [b] = Err OutOfBounds.
Proof. split; reflexivity. Qed.
Example C128_ex : bank_inside [0; 1; 2]%Z [1; 2; 1]%Z 3 4 /\
  map (bank_value [0; 1; 2]%Z [1; 2; 1]%Z [1; 2; 3; 4] [10; 20; 30]) [0; 1; 2]%Z = [50; 180; 0].
Proof.
  split.
  - split; [reflexivity|]. split; [|vm_compute; split; [discriminate|reflexivity]].
    intros i Hi. change (zlen [0; 1; 2]%Z) with 3%Z in Hi. assert (i = 0 \/ i = 1 \/ i = 2)%Z as [->|[->| ->]] by lia; vm_compute; intros; repeat split; try reflexivity; try discriminate.
  - cbn [map]. unfold bank_value.
    change (width [0; 1; 2]%Z [1; 2; 1]%Z 0) with 2%Z. change (width [0; 1; 2]%Z [1; 2; 1]%Z 1) with 2%Z. change (width [0; 1; 2]%Z [1; 2; 1]%Z 2) with 0%Z.
    pose proof sumr2 as T2.
    rewrite !T2, sumr_0 by lia. f_equal; [|f_equal].
    + change (10 * 1 + 20 * 2 = 50). lra.
    + change (20 * 3 + 30 * 4 = 180). lra.
Qed.

(** ** C129 *)
(** The same in float32: each answer is within 2 (width + 1) 2^-24 of the filter's sum, relative to the sum of the
    absolute values of the products. *)
Theorem C129_accuracy (ef lf tf : f32 -> f32) starts stops (c x : list f32) : bank_inside starts stops (zlen x) (zlen c) ->
  Forall (fun v => is_finite v = true) c -> Forall (fun v => is_finite v = true) x ->
  (forall i, (0 <= i < zlen starts)%Z -> (width starts stops i <= 8000000)%Z /\ bank_mag starts stops (vals c) (vals x) i <= max32) ->
  exists y, sparse_filterbank_py (f32_arith ef lf tf) x starts stops c = Ret y /\ zlen y = zlen starts /\ Forall (fun v => is_finite v = true) y /\
    forall i, (0 <= i < zlen starts)%Z ->
      Rabs (entry (vals y) i - bank_value starts stops (vals c) (vals x) i) <= 2 * IZR (width starts stops i + 1) * u24 * bank_mag starts stops (vals c) (vals x) i.
Proof. apply bank_err. Qed.
Example C129_ex : Forall (fun v => is_finite v = true) (zs [1; 2; 3; 4]%Z) /\ Forall (fun v => is_finite v = true) (zs [10; 20; 30]%Z) /\
  (forall i, (0 <= i < 3)%Z -> (width [0; 1; 2]%Z [1; 2; 1]%Z i <= 8000000)%Z /\ bank_mag [0; 1; 2]%Z [1; 2; 1]%Z (vals (zs [1; 2; 3; 4]%Z)) (vals (zs [10; 20; 30]%Z)) i <= max32).
Proof.
  destruct (zs_vals [1; 2; 3; 4]%Z) as [V1 F1]; [repeat constructor; lia|]. destruct (zs_vals [10; 20; 30]%Z) as [V2 F2]; [repeat constructor; lia|].
  split; [exact F1|]. split; [exact F2|]. rewrite V1, V2. pose proof max32_big as MB. pose proof tiny32_small as TS.
  pose proof sumr2 as T2.
  intros i Hi. assert (i = 0 \/ i = 1 \/ i = 2)%Z as [->|[->| ->]] by lia; (split; [vm_compute; discriminate|]); unfold bank_mag;
  [change (width [0; 1; 2]%Z [1; 2; 1]%Z 0) with 2%Z|change (width [0; 1; 2]%Z [1; 2; 1]%Z 1) with 2%Z|change (width [0; 1; 2]%Z [1; 2; 1]%Z 2) with 0%Z];
  rewrite ?T2, ?sumr_0 by lia.
  - change (Rabs 10 * Rabs 1 + tiny32 + (Rabs 20 * Rabs 2 + tiny32) <= max32). rewrite !Rabs_pos_eq by lra. lra.
  - change (Rabs 20 * Rabs 3 + tiny32 + (Rabs 30 * Rabs 4 + tiny32) <= max32). rewrite !Rabs_pos_eq by lra. lra.
  - lra.
Qed.

(** ** C130 *)
(** eml_signal_hann_apply: sample i times (1 - cos(2 pi i / (n - 1))) / 2. *)
Theorem C130_hann (ef lf tf cosf sinf : f32 -> f32) (ed ld td cosd : f64 -> f64) e (x : list f32) :
  cos_within e cosd -> 0 <= e <= / 8 -> (2 <= zlen x <= 2147483647)%Z ->
  Forall (fun v => is_finite v = true /\ Rabs (B2R v) <= max32) x ->
  exists y, eml_signal_hann_apply (f32_arith ef lf tf) (c_trig ef lf tf cosf sinf ed ld td cosd) x (zlen x) = Ret (EmlOk, y) /\
  zlen y = zlen x /\ Forall (fun v => is_finite v = true) y /\
  forall i, (0 <= i < zlen x)%Z -> Rabs (entry (vals y) i - hann (zlen x) i * entry (vals x) i) <= (e + 5 * u24) * Rabs (entry (vals x) i) + u24 * tiny32.
Proof. apply hann_err. Qed.
(** eml_signal_mean *)
Theorem C130_mean (ef lf tf cosf sinf : f32 -> f32) (ed ld td cosd : f64 -> f64) B (x : list f32) :
  0 <= B <= max32 -> (1 <= zlen x <= 8388608)%Z -> Forall (fun v => is_finite v = true /\ Rabs (B2R v) <= B) x ->
  exists y : f32, eml_signal_mean (f32_arith ef lf tf) (c_trig ef lf tf cosf sinf ed ld td cosd) x (zlen x) = Ret y /\ is_finite y = true /\
    Rabs (B2R y - rsum (vals x) / IZR (zlen x)) <= (IZR (zlen x) + 3) * B * u24 + bpow radix2 (-150).
Proof. apply mean_err. Qed.
Example C130_ex : 0 <= 4 <= max32 /\ Forall (fun v => is_finite v = true /\ Rabs (B2R v) <= 4) (zs [1; -2; 3; 4]%Z).
Proof.
  pose proof max32_big as MB. split; [lra|].
  apply (zs_bound _ 4); [lia|]. repeat constructor; lia.
Qed.
