(** Filterbanks and mel spectra: properties C41, C42, C62, C63, C64, C65. *)
From Coq Require Import ZArith List Bool Lia Reals Lra.
From Verif.Base Require Import Res CInt ListX Loops Float Arith Kernels RealSum.
From Verif.Model Require Import Common Vector Fft Audio.
From Verif.Spec Require Import RealSpec FftSpec AudioSpec.
From Verif.Proof Require Import Vector Fft Filterbank Mel MelSpectrogram MelProps.
Import ListNotations.
Open Scope Z_scope.
Open Scope res_scope.

(** ** C41 *)
(** Exact arithmetic: if each filter is one run of nonzero coefficients between zeros, and no longer than
    the input, the sparse form gives the dense product, in Python and in C.
    Missing: filters with zeros between nonzero coefficients or without nonzero coefficients. *)
Theorem C41_python_dense_partial (mels : list (list R)) (x : list R) :
  Forall band mels -> Forall (fun row => zlen row <= zlen x) mels ->
  (let* s := sparse_filterbank real_arith (map (map Fin) mels) in sparse_filterbank_reduce real_arith s (map Fin x)) = Ret (map Fin (dense mels x)).
Proof. apply python_dense. Qed.
Theorem C41_c_dense_partial (mels : list (list R)) (x : list R) :
  Forall band mels -> Forall (fun row => zlen row <= zlen x) mels -> zlen (List.concat mels) < 2 ^ 31 ->
  (let* (starts, ends, coeffs) := sparse_filterbank real_arith (map (map Fin) mels) in
   sparse_filterbank_py real_arith (map Fin x) starts ends coeffs) = Ret (map Fin (dense mels x)).
Proof. apply c_dense. Qed.
(** For every other matrix and every input, neither returns a result. *)
Theorem C41_only_bands_refuted (mels : list (list R)) (x : list xreal) : ~ Forall band mels ->
  (forall out, (let* s := sparse_filterbank real_arith (map (map Fin) mels) in sparse_filterbank_reduce real_arith s x) <> Ret out) /\
  (forall out, (let* (starts, ends, coeffs) := sparse_filterbank real_arith (map (map Fin) mels) in
     sparse_filterbank_py real_arith x starts ends coeffs) <> Ret out).
Proof.
  intros N. split; intros out E; apply N; [apply (python_only_bands mels x out E)|].
  apply bind_Ret in E as ([[s e] c] & E1 & E2). apply (python_only_bands mels x out). rewrite E1. cbn [bind]. apply python_is_c. exact E2.
Qed.
Theorem C41_empty_filter_refuted (mels : list (list R)) : Exists (Forall (fun v => v = 0%R)) mels ->
  sparse_filterbank real_arith (map (map Fin) mels) = Err IndexError_.
Proof. apply build_empty. Qed.
(** Any arithmetic, the same indices and coefficients: if one returns, so does the other, with the same
    result (the same operations in the same order). *)
Theorem C41_same A starts ends coeffs input out : Forall (fun s => 0 <= s) starts -> zlen coeffs < 2 ^ 31 ->
  (sparse_filterbank_reduce A (starts, ends, coeffs) input = Ret out <-> sparse_filterbank_py A input starts ends coeffs = Ret out).
Proof. intros HS HC. split; [apply c_is_python; auto|apply python_is_c]. Qed.

Example C41_ex_band : Forall band [[0; 1; 2; 0]; [0; 0; 3; 1]]%R.
Proof.
  repeat constructor; [exists 1%nat, [1; 2]%R, 1%nat|exists 2%nat, [3; 1]%R, 0%nat]; (split; [reflexivity|]); (split; [discriminate|]); repeat constructor; lra.
Qed.
Example C41_ex_gap : ~ Forall band [[1; 0; 1]]%R.
Proof.
  intros H. inversion H as [|? ? (a & b & c & E & N & F) _]; subst.
  destruct a as [|[|a]]; [|cbn in E; injection E as E _; lra|cbn in E; injection E as E _; lra].
  cbn in E. destruct b as [|b0 [|b1 b]]; [congruence| |].
  - cbn in E. injection E as _ E. destruct c as [|[|[|c]]]; cbn in E; try discriminate; injection E as E; lra.
  - injection E as _ <- E. inversion F as [|? ? _ F']. inversion F' as [|? ? F0 _]. lra.
Qed.

(** ** C42 *)
(** Any arithmetic. [b n] is the bin of the n-th center. If the bins of each filter that passes the
    function's checks are in order and the last of them is inside the spectrum, nothing is accessed out of
    bounds, only mels is written, and the result is EmlOk exactly when sizes fit and all filters pass. *)
Theorem C42_in_bounds_partial A T M (params : mel A) b sb spec mb mels :
  0 <= n_mels A params < 2 ^ 31 - 1 -> 0 <= n_fft A params < 2 ^ 31 - 1 ->
  (forall n, 0 <= n <= n_mels A params + 1 -> mel_bin A T M params n = Ret (b n)) ->
  (forall m, 1 <= m <= n_mels A params -> 0 <= b (m - 1) -> b (m + 1) <= 1 + Z.quot (n_fft A params) 2 ->
     b (m - 1) <= b m <= b (m + 1) /\ b (m + 1) < v_length spec) ->
  inside sb spec -> inside mb mels ->
  exists e mb', eml_audio_melspec A T M params sb spec mb mels = Ret (e, mb') /\ zlen mb' = zlen mb /\
    (forall j, j < v_start mels \/ v_start mels + v_length mels <= j -> zget mb' j = zget mb j) /\
    (e = EmlOk <-> 1 + n_fft A params / 2 <= v_length spec /\ n_mels A params = v_length mels /\
                   forall m, 1 <= m <= n_mels A params -> 0 <= b (m - 1) /\ b (m + 1) <= 1 + n_fft A params / 2).
Proof. intros Hn Hf Hb OK (S0 & _ & S1) (M0 & _ & M1). apply melspec_bounds; auto. Qed.
(** Exact arithmetic, 0 <= fmin <= fmax <= samplerate / 2, n_fft even: always within bounds, and EmlOk
    exactly when the sizes fit. Missing: fmax above samplerate / 2. *)
Theorem C42_nyquist_partial (sb : list xreal) spec (mb : list xreal) mels nm nf sr (fmin fmax : R) :
  0 <= nm < 2 ^ 31 - 1 -> 0 <= nf < 2 ^ 31 - 1 -> Z.even nf = true -> 0 < sr ->
  (0 <= fmin)%R -> (fmin <= fmax)%R -> (fmax <= IZR sr / 2)%R ->
  inside sb spec -> inside mb mels ->
  exists e mb', eml_audio_melspec real_arith real_trig real_mathf (mk_mel real_arith nm (Fin fmin) (Fin fmax) nf sr) sb spec mb mels = Ret (e, mb') /\
    zlen mb' = zlen mb /\
    (forall j, j < v_start mels \/ v_start mels + v_length mels <= j -> zget mb' j = zget mb j) /\
    (e = EmlOk <-> 1 + nf / 2 <= v_length spec /\ nm = v_length mels).
Proof.
  intros Hn Hf Hev Hs F0 F1 F2 (S0 & S2 & S1) (M0 & _ & M1).
  assert (Q : 0 <= nf / 2) by (apply Z.div_pos; lia).
  destruct (Z_le_gt_dec (1 + nf / 2) (v_length spec)) as [L|L].
  - destruct (melspec_bounds real_arith real_trig real_mathf (real_mel nm fmin fmax nf sr) (binR fmin fmax nm nf sr) sb spec mb mels) as (e & mb' & E & L1 & L2 & L3); auto.
    + intros n Hi. apply bin_run; auto.
    + intros m Hm _ _. cbn [n_mels n_fft real_mel] in *.
      pose proof (b_range nm nf sr fmin fmax Hn Hf Hev Hs F0 F1 F2 (m + 1) ltac:(lia)).
      split; [split; apply b_mono; auto; lia|lia].
    + exists e, mb'. split; [exact E|]. split; auto. split; auto. rewrite L3. cbn [n_mels n_fft real_mel]. split; [tauto|].
      intros [X Y]. split; auto. split; auto. intros m Hm.
      pose proof (b_range nm nf sr fmin fmax Hn Hf Hev Hs F0 F1 F2 (m - 1) ltac:(lia)).
      pose proof (b_range nm nf sr fmin fmax Hn Hf Hev Hs F0 F1 F2 (m + 1) ltac:(lia)). lia.
  - exists EmlSizeMismatch, mb. unfold eml_audio_melspec. cbn [n_mels n_fft]. rewrite Z.quot_div_nonneg by lia.
    assert (nf / 2 <= nf) by (apply Z.div_le_upper_bound; lia). change (2 ^ 31) with 2147483648 in *.
    rewrite chk_int32_ok by (unfold int32_ok; lia). cbn [bind].
    destruct (Z.leb_spec (1 + nf / 2) (v_length spec)); [lia|]. split; [reflexivity|]. split; auto. split; auto. split; [discriminate|lia].
Qed.
(** One filter from 0 to 5600 Hz at 9700 Hz, n_fft 8: whatever the five values of the spectrum are, the
    sixth is read. *)
Theorem C42_above_nyquist_refuted s : zlen s = 5 ->
  melfilter_py real_arith real_trig real_mathf (map Fin s) 9700 8 1 (Fin 0) (Fin 5600) = Err OutOfBounds.
Proof. apply overread. Qed.
(** More filters than samples: the binding melspectrogram writes past its buffer, whatever the samples. *)
Theorem C42_many_filters_refuted (x : list R) nm sr (fmin fmax : R) :
  power_of_two (zlen x) -> 4 <= zlen x < 2 ^ 31 -> zlen x < nm < 2 ^ 31 - 1 -> 0 < sr -> (0 <= fmin)%R -> (fmin < fmax)%R -> (fmax <= IZR sr / 2)%R ->
  melspectrogram_py real_arith real_trig real_mathf (map Fin x) sr (zlen x) nm (Fin fmin) (Fin fmax) = Err OutOfBounds.
Proof. intros Hp H4 Hnm Hs F0 F1 F2. apply spectrogram_overrun; auto. lia. Qed.

(** ** C62 *)
(** Exact arithmetic: |rfft[i]|^2 / n_fft for i = 0 .. n_fft/2, nothing else written; if rfft is not longer
    than 1 + n_fft/2 or out does not have that length, SizeMismatch and nothing written. *)
Theorem C62_power (rs : list R) (ob : list xreal) rfft out n_fft : 0 < n_fft -> inside (map Fin rs) rfft -> inside ob out ->
  if (1 + n_fft / 2 <? v_length rfft) && (v_length out =? 1 + n_fft / 2)
  then exists ob', eml_audio_power_spectrogram real_arith real_trig real_mathf (map Fin rs) rfft ob out n_fft = Ret (EmlOk, ob') /\
    zlen ob' = zlen ob /\
    (forall i, 0 <= i <= n_fft / 2 -> zget ob' (v_start out + i) = Ret (Fin ((Rabs (entry rs (v_start rfft + i))) ^ 2 / IZR n_fft)%R)) /\
    (forall j, j < v_start out \/ v_start out + v_length out <= j -> zget ob' j = zget ob j)
  else eml_audio_power_spectrogram real_arith real_trig real_mathf (map Fin rs) rfft ob out n_fft = Ret (EmlSizeMismatch, ob).
Proof.
  intros Hn IR IO. pose proof (power_ok real_arith real_trig real_mathf (map Fin rs) rfft ob out n_fft ltac:(lia) IR IO) as P.
  destruct (Z.ltb_spec (1 + n_fft / 2) (v_length rfft)) as [L|L]; cbn [andb] in *; [|exact P].
  destruct (Z.eqb_spec (v_length out) (1 + n_fft / 2)) as [E|E]; [|exact P].
  destruct P as (ob' & EB & L1 & V & U). exists ob'. split; [exact EB|]. split; auto. split; auto.
  intros i Hi. destruct IR as (R0 & R1 & R2). assert (ZL : zlen (map Fin rs) = zlen rs) by apply Res.zlen_map.
  erewrite V; [|exact Hi|].
  2:{ rewrite (zget_nth _ _ (Fin 0)) by (change (num real_arith) with xreal in *; lia). rewrite (map_nth Fin). reflexivity. }
  cbn. fold (entry rs (v_start rfft + i)). apply (f_equal (fun r => Ret (Fin r))). unfold Rdiv. ring.
Qed.
(** In any arithmetic the accesses are within bounds. *)
Theorem C62_in_bounds A T M (rb ob : list (num A)) rfft out n_fft : 0 <= n_fft -> inside rb rfft -> inside ob out ->
  exists e ob', eml_audio_power_spectrogram A T M rb rfft ob out n_fft = Ret (e, ob') /\ zlen ob' = zlen ob /\
    (forall j, j < v_start out \/ v_start out + v_length out <= j -> zget ob' j = zget ob j).
Proof.
  intros Hn IR IO. pose proof (power_ok A T M rb rfft ob out n_fft Hn IR IO) as P. destruct (_ && _) in P.
  - destruct P as (ob' & E & L & _ & U). eauto.
  - eauto.
Qed.

(** ** C63 *)
(** Exact arithmetic: the filterbank is the triangular one for every spectrum exactly when no bin lies just
    above a center (within a fraction 1/n_fft). *)
Theorem C63_triangles_partial nm nf sr (fmin fmax : R) :
  0 <= nm < 2 ^ 31 - 1 -> 2 <= nf < 2 ^ 31 - 1 -> Z.even nf = true -> 0 < sr -> (0 <= fmin)%R -> (fmin < fmax)%R -> (fmax <= IZR sr / 2)%R ->
  (forall spec, zlen spec = 1 + nf / 2 -> exists out,
     melfilter_py real_arith real_trig real_mathf (map Fin spec) sr nf nm (Fin fmin) (Fin fmax) = Ret (map Fin out) /\ mel_response sr nf nm fmin fmax spec out) <->
  (forall m f, 1 <= m <= nm -> evenly fmin fmax nm m f -> clear_of_bins sr nf f).
Proof. apply response_iff. Qed.
(** In general the difference is at most B b / (n_fft (c - b)) for a spectrum bounded by B and a filter
    with top b and end c. *)
Theorem C63_close_partial nm nf sr (fmin fmax B : R) spec :
  0 <= nm < 2 ^ 31 - 1 -> 2 <= nf < 2 ^ 31 - 1 -> Z.even nf = true -> 0 < sr -> (0 <= fmin)%R -> (fmin < fmax)%R -> (fmax <= IZR sr / 2)%R ->
  zlen spec = 1 + nf / 2 -> (forall k, 0 <= k <= nf / 2 -> (Rabs (entry spec k) <= B)%R) ->
  exists out, melfilter_py real_arith real_trig real_mathf (map Fin spec) sr nf nm (Fin fmin) (Fin fmax) = Ret (map Fin out) /\ zlen out = nm /\
  forall m a b c, 1 <= m <= nm -> evenly fmin fmax nm (m - 1) a -> evenly fmin fmax nm m b -> evenly fmin fmax nm (m + 1) c ->
    (Rabs (entry out (m - 1) - tri_response sr nf spec a b c) <= B * (b / (IZR nf * (c - b))))%R.
Proof. intros. apply response_close; auto. Qed.
(** The centers exist and are unique; the first and last frequencies are fmin and fmax. *)
Theorem C63_centers (fmin fmax : R) nm n : exists f, evenly fmin fmax nm n f /\ forall g, evenly fmin fmax nm n g -> g = f.
Proof. exists (center fmin fmax nm n). split; [apply center_evenly|]. intros g Hg. now apply evenly_center. Qed.
Theorem C63_near_bin_refuted : exists spec, zlen spec = 5 /\ forall out,
  melfilter_py real_arith real_trig real_mathf (map Fin spec) 5680 8 1 (Fin 0) (Fin 2100) = Ret (map Fin out) -> ~ mel_response 5680 8 1 0 2100 spec out.
Proof.
  destruct (Classical_Prop.classic (exists spec, zlen spec = 5 /\ forall out,
    melfilter_py real_arith real_trig real_mathf (map Fin spec) 5680 8 1 (Fin 0) (Fin 2100) = Ret (map Fin out) -> ~ mel_response 5680 8 1 0 2100 spec out)) as [H|H]; auto.
  exfalso. destruct near_bin as [E N]. apply N.
  apply (proj1 (response_iff 1 8 5680 0 2100 ltac:(lia) ltac:(lia) eq_refl ltac:(lia) ltac:(lra) ltac:(lra) ltac:(lra))) with (m := 1); [|lia|exact E].
  intros spec L. assert (SL : zlen spec = 5) by exact L.
  exists (vals 1 8 5680 0 2100 spec). split; [apply melfilter_vals; auto; lia || lra|].
  destruct (Classical_Prop.classic (mel_response 5680 8 1 0 2100 spec (vals 1 8 5680 0 2100 spec))) as [Y|Y]; auto.
  exfalso. apply H. exists spec. split; auto. intros out EO.
  rewrite melfilter_vals in EO by (auto; lia || lra). assert (out = vals 1 8 5680 0 2100 spec) as -> by (symmetry; apply map_Fin_inj; congruence). exact Y.
Qed.
Example C63_ex : evenly 0 2100 1 1 700 /\ clear_of_bins 5600 8 700.
Proof.
  split; [exact (proj1 near_bin)|]. intros k Hk [K1 K2]. unfold bin_freq in *. assert (A : (1 < IZR k)%R) by lra. assert (B : (IZR k < 2)%R) by lra. apply lt_IZR in A, B. lia.
Qed.

(** ** C64 *)
(** Exact arithmetic, length a power of two: the output is the response to the squared *real parts* of the
    transform. Missing: the imaginary parts (the test of melspectrogram is marked as broken). *)
Theorem C64_real_parts_partial (x : list R) nm sr (fmin fmax : R) :
  power_of_two (zlen x) -> 4 <= zlen x < 2 ^ 31 -> 0 <= nm <= zlen x -> 0 < sr -> (0 <= fmin)%R -> (fmin < fmax)%R -> (fmax <= IZR sr / 2)%R ->
  (forall m f, 1 <= m <= nm -> evenly fmin fmax nm m f -> clear_of_bins sr (zlen x) f) ->
  exists out, melspectrogram_py real_arith real_trig real_mathf (map Fin x) sr (zlen x) nm (Fin fmin) (Fin fmax) = Ret (map Fin out) /\
    mel_response sr (zlen x) nm fmin fmax (re_power x) out.
Proof. intros Hp H4 [Hn Hm] Hs F0 F1 F2 C. apply spectrogram_re; auto. Qed.
(** So it is the mel spectrum when the imaginary parts are zero. *)
Theorem C64_even_blocks_partial (x : list R) nm sr (fmin fmax : R) :
  power_of_two (zlen x) -> 4 <= zlen x < 2 ^ 31 -> 0 <= nm <= zlen x -> 0 < sr -> (0 <= fmin)%R -> (fmin < fmax)%R -> (fmax <= IZR sr / 2)%R ->
  (forall m f, 1 <= m <= nm -> evenly fmin fmax nm m f -> clear_of_bins sr (zlen x) f) ->
  (forall k, 0 <= k <= zlen x / 2 -> dft_im (zlen x) (windowed x) (repeat 0%R (length x)) k = 0%R) ->
  exists out, melspectrogram_py real_arith real_trig real_mathf (map Fin x) sr (zlen x) nm (Fin fmin) (Fin fmax) = Ret (map Fin out) /\
    mel_response sr (zlen x) nm fmin fmax (map (power (windowed x)) (zrange (1 + zlen x / 2))) out.
Proof.
  intros Hp H4 [Hn Hm] Hs F0 F1 F2 C IM. destruct (spectrogram_re x nm sr fmin fmax Hp H4 Hn Hs F0 F1 F2 Hm C) as (out & E & L & RO).
  exists out. split; auto. split; auto. intros m a b c HM Ea Eb Ec. rewrite (RO m a b c HM Ea Eb Ec). apply tri_ext.
  intros k Hk. rewrite power_re by auto. symmetry. apply entry_map. lia.
Qed.
(** Eight samples whose transform is imaginary: the output is 0, the mel spectrum is not. *)
Theorem C64_imaginary_refuted : exists x out a b c,
  zlen x = 8 /\ melspectrogram_py real_arith real_trig real_mathf (map Fin x) 5600 8 1 (Fin 0) (Fin 2100) = Ret (map Fin out) /\
  evenly 0 2100 1 0 a /\ evenly 0 2100 1 1 b /\ evenly 0 2100 1 2 c /\ clear_of_bins 5600 8 b /\
  entry out 0 = 0%R /\ (0 < tri_response 5600 8 (map (power (windowed x)) (zrange 5)) a b c)%R.
Proof. apply lost_imaginary. Qed.

(** ** C65 *)
Theorem C65_mean (x : list R) : x <> [] ->
  eml_signal_mean real_arith real_trig (map Fin x) (zlen x) = Ret (Fin (rsum x / IZR (zlen x))).
Proof. intros N. apply mean_real; auto. destruct x; [congruence|]. unfold zlen. cbn [length]. lia. Qed.
Theorem C65_hann (x : list R) : 2 <= zlen x ->
  eml_signal_hann_apply real_arith real_trig (map Fin x) (zlen x) = Ret (EmlOk, map Fin (windowed x)).
Proof. apply hann_real. Qed.
(** The window: between 0 and 1, zero at both ends, symmetric. *)
Theorem C65_window n i : 2 <= n -> 0 <= i < n -> (0 <= hann n i <= 1)%R /\ hann n 0 = 0%R /\ hann n (n - 1) = 0%R /\ hann n (n - 1 - i) = hann n i.
Proof.
  intros Hn Hi. assert (N : (1 <= IZR (n - 1))%R) by (apply IZR_le; lia). unfold hann. split; [pose proof (COS_bound (2 * PI * IZR i / IZR (n - 1))); lra|]. split.
  { replace (2 * PI * 0 / IZR (n - 1))%R with 0%R by (field; lra). rewrite cos_0. lra. } split.
  { replace (2 * PI * IZR (n - 1) / IZR (n - 1))%R with (2 * PI)%R by (field; lra). rewrite cos_2PI. lra. }
  replace (2 * PI * IZR (n - 1 - i) / IZR (n - 1))%R with (- (2 * PI * IZR i / IZR (n - 1)) + 2 * PI)%R by (rewrite (minus_IZR (n - 1) i); field; lra).
  pose proof (cos_period (- (2 * PI * IZR i / IZR (n - 1))) 1) as P. rewrite cos_neg in P. replace (2 * INR 1 * PI)%R with (2 * PI)%R in P by (simpl; ring). rewrite P. reflexivity.
Qed.
Example C65_ex : eml_signal_mean real_arith real_trig (map Fin [1; 2; 6]%R) 3 = Ret (Fin 3).
Proof. change 3 with (zlen [1; 2; 6]%R) at 1. rewrite C65_mean by discriminate. apply (f_equal (fun r => Ret (Fin r))). unfold rsum, zlen. cbn [fold_right length]. change (IZR (Z.of_nat 3)) with (IZR 3). lra. Qed.
