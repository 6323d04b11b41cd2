(** The mel filterbank is triangular, up to its treatment of one bin; witnesses. *)
From Coq Require Import ZArith List Bool Lia Reals Lra Psatz.
From Flocq Require Import Core.
From Verif.Base Require Import Res CInt ListX Loops Arith Kernels RealSum.
From Verif.Model Require Import Common Vector Fft Audio.
From Verif.Spec Require Import RealSpec FftSpec AudioSpec.
From Verif.Proof Require Import Vector Fft FftReal Mel MelSpectrogram.
Import ListNotations.
Open Scope R_scope.

Section Exact.
Context (nm nf sr : Z) (fmin fmax : R).
Hypothesis Hnm : (0 <= nm < 2 ^ 31 - 1)%Z.
Hypothesis Hnf : (2 <= nf < 2 ^ 31 - 1)%Z.
Hypothesis Hev : Z.even nf = true.
Hypothesis Hsr : (0 < sr)%Z.
Hypothesis H0 : 0 <= fmin.
Hypothesis H1 : fmin < fmax.
Hypothesis H2 : fmax <= IZR sr / 2.
Let c := center fmin fmax nm.
Let b := binR fmin fmax nm nf sr.
Lemma Hnf' : (0 <= nf < 2 ^ 31 - 1)%Z. Proof. lia. Qed.
Lemma H1' : fmin <= fmax. Proof. lra. Qed.
Lemma Hf2 : (2 <= nf)%Z. Proof. lia. Qed.
Hint Resolve Hnf' H1' Hf2 : core.

Lemma entry_map (f : Z -> R) n i : (0 <= i < n)%Z -> entry (map f (zrange n)) i = f i.
Proof.
  intros Hi. unfold entry. pose proof (buf_get n f i Hi) as B. unfold buf in B. rewrite (zget_nth _ _ 0) in B.
  - now injection B.
  - rewrite Res.zlen_map, zlen_zrange'. lia.
Qed.
Definition vals (spec : list R) : list R := map (fun i => val nm nf sr fmin fmax spec (i + 1)) (zrange nm).
Lemma vals_entry spec m : (1 <= m <= nm)%Z -> entry (vals spec) (m - 1) = val nm nf sr fmin fmax spec m.
Proof. intros Hm. unfold vals. rewrite entry_map by lia. f_equal. lia. Qed.
Lemma zlen_vals spec : zlen (vals spec) = nm.
Proof. unfold vals. rewrite Res.zlen_map, zlen_zrange'. lia. Qed.
Lemma ev n a : evenly fmin fmax nm n a -> a = c n.
Proof. apply evenly_center. Qed.

Lemma response_of spec : (forall m, (1 <= m <= nm)%Z -> bin_freq sr nf (b m) <= c m) -> mel_response sr nf nm fmin fmax spec (vals spec).
Proof.
  intros L. split; [apply zlen_vals|]. intros m a b0 c0 Hm Ea Eb Ec. rewrite (ev _ _ Ea), (ev _ _ Eb), (ev _ _ Ec), vals_entry by auto.
  apply val_exact; auto.
Qed.
Lemma clear_b : (forall m f, (1 <= m <= nm)%Z -> evenly fmin fmax nm m f -> clear_of_bins sr nf f) <-> forall m, (1 <= m <= nm)%Z -> bin_freq sr nf (b m) <= c m.
Proof.
  split.
  - intros C m Hm. specialize (C m (c m) Hm (center_evenly fmin fmax nm m) (b m)).
    pose proof (b_range nm nf sr fmin fmax Hnm Hnf' Hev Hsr H0 H1' H2 m ltac:(lia)).
    pose proof (at_c nm nf sr fmin fmax Hsr H0 H2 H1 Hf2 m).
    destruct (Rle_lt_dec (bin_freq sr nf (b m)) (c m)); auto. exfalso. apply C; auto.
  - intros L m f Hm Ef k Hk [K1 K2]. rewrite (ev _ _ Ef) in *. specialize (L m Hm).
    assert (KB : k = b m).
    { destruct (Z_lt_ge_dec k (b m)) as [X|X].
      - pose proof (below_c nm nf sr fmin fmax Hnm Hsr H0 H1' H2 H1 Hf2 m k ltac:(lia) X). fold (c m) in *. lra.
      - destruct (Z.eq_dec k (b m)); auto. exfalso.
        pose proof (b_hi nm nf sr fmin fmax Hsr H0 H2 H1 m) as B. fold (c m) (b m) in B. pose proof (freq_nf nf sr Hf2 k) as F.
        assert (N : 2 <= IZR nf) by (apply IZR_le; lia). assert (S : 0 < IZR sr) by (apply IZR_lt; lia).
        apply Rmult_le_compat_r with (r := IZR nf) in K2; [|lra]. rewrite F in K2. replace (c m * (1 + / IZR nf) * IZR nf) with (c m * (IZR nf + 1)) in K2 by (field; lra).
        rewrite plus_IZR in B. assert (IZR (b m) + 1 <= IZR k) by (rewrite <- plus_IZR; apply IZR_le; lia).
        assert ((IZR (b m) + 1) * IZR sr <= IZR k * IZR sr) by (apply Rmult_le_compat_r; lra). lra. }
    subst k. lra.
Qed.

Lemma melfilter_vals spec : zlen spec = (1 + nf / 2)%Z ->
  melfilter_py real_arith real_trig real_mathf (map Fin spec) sr nf nm (Fin fmin) (Fin fmax) = Ret (map Fin (vals spec)).
Proof. intros. apply melfilter_run; auto. Qed.

Lemma map_Fin_inj l1 l2 : map Fin l1 = map Fin l2 -> l1 = l2.
Proof. revert l2. induction l1 as [|x l1 IH]; destruct l2; intros H; try discriminate; auto. injection H as -> H. f_equal. auto. Qed.

(** Exact for every spectrum, if and only if the centers are clear of bins. *)
Lemma response_iff :
  (forall spec, zlen spec = (1 + nf / 2)%Z -> exists out, melfilter_py real_arith real_trig real_mathf (map Fin spec) sr nf nm (Fin fmin) (Fin fmax) = Ret (map Fin out) /\ mel_response sr nf nm fmin fmax spec out) <->
  (forall m f, (1 <= m <= nm)%Z -> evenly fmin fmax nm m f -> clear_of_bins sr nf f).
Proof.
  rewrite clear_b. split.
  - intros R m Hm. destruct (Rle_lt_dec (bin_freq sr nf (b m)) (c m)) as [L|L]; auto. exfalso.
    pose proof (b_range nm nf sr fmin fmax Hnm Hnf' Hev Hsr H0 H1' H2 m ltac:(lia)) as BR. fold b in BR.
    set (spec := map (fun k => if (k =? b m)%Z then 1 else 0) (zrange (1 + nf / 2))).
    assert (SL : zlen spec = (1 + nf / 2)%Z) by (unfold spec; rewrite Res.zlen_map, zlen_zrange'; lia).
    destruct (R spec SL) as (out & E & _ & RO). rewrite melfilter_vals in E by auto. assert (out = vals spec) as -> by (symmetry; apply map_Fin_inj; congruence).
    specialize (RO m (c (m - 1)%Z) (c m) (c (m + 1)%Z) Hm (center_evenly _ _ _ _) (center_evenly _ _ _ _) (center_evenly _ _ _ _)).
    rewrite vals_entry in RO by auto. pose proof (val_tri nm nf sr fmin fmax Hnm Hnf' Hev Hsr H0 H1' H2 H1 Hf2 spec m Hm) as VT. fold c in VT. fold b in VT.
    assert (ES : entry spec (b m) = 1) by (unfold spec; rewrite entry_map by lia; rewrite Z.eqb_refl; auto).
    rewrite ES in VT.
    pose proof (c_incr nm fmin fmax Hnm H0 H1 (m - 1) m ltac:(lia)) as C1. pose proof (c_incr nm fmin fmax Hnm H0 H1 m (m + 1) ltac:(lia)) as C2. fold c in C1, C2.
    rewrite tri_upper in VT by lra. set (F := bin_freq sr nf (b m)) in *.
    assert (G1 : clamp01 ((F - c (m - 1)%Z) / (c m - c (m - 1)%Z)) = 1).
    { pose proof (div_ge_1 (F - c (m - 1)%Z) (c m - c (m - 1)%Z) ltac:(lra) ltac:(lra)). unfold clamp01. rewrite Rmin_right by lra. apply Rmax_left. lra. }
    assert (G2 : clamp01 ((c (m + 1)%Z - F) / (c (m + 1)%Z - c m)) < 1).
    { unfold clamp01. assert ((c (m + 1)%Z - F) / (c (m + 1)%Z - c m) < 1). { apply Rmult_lt_reg_r with (c (m + 1)%Z - c m); [lra|]. unfold Rdiv. rewrite Rmult_assoc, Rinv_l by lra. lra. }
      apply Rmax_lub_lt; [|lra]. apply Rle_lt_trans with ((c (m + 1)%Z - F) / (c (m + 1)%Z - c m)); [apply Rmin_l|auto]. }
    rewrite G1 in VT. lra.
  - intros L spec SL. exists (vals spec). split; [apply melfilter_vals; auto|]. apply response_of; auto.
Qed.

(** Always: the difference is small. *)
Lemma response_close spec B : zlen spec = (1 + nf / 2)%Z -> (forall k, (0 <= k <= nf / 2)%Z -> Rabs (entry spec k) <= B) ->
  exists out, melfilter_py real_arith real_trig real_mathf (map Fin spec) sr nf nm (Fin fmin) (Fin fmax) = Ret (map Fin out) /\ zlen out = nm /\
  forall m a b c, (1 <= m <= nm)%Z -> evenly fmin fmax nm (m - 1) a -> evenly fmin fmax nm m b -> evenly fmin fmax nm (m + 1) c ->
    Rabs (entry out (m - 1) - tri_response sr nf spec a b c) <= B * (b / (IZR nf * (c - b))).
Proof.
  intros SL HB. exists (vals spec). split; [apply melfilter_vals; auto|]. split; [apply zlen_vals|].
  intros m a b0 c0 Hm Ea Eb Ec. rewrite (ev _ _ Ea), (ev _ _ Eb), (ev _ _ Ec), vals_entry by auto.
  apply val_close; auto.
Qed.
End Exact.

(** ** Spectrograms *)
Section Spectrogram.
Context (x : list R) (nm sr : Z) (fmin fmax : R).
Let n := zlen x.
Hypothesis Hp : power_of_two n.
Hypothesis Hn : (4 <= n < 2 ^ 31)%Z.
Hypothesis Hnm : (0 <= nm)%Z.
Hypothesis Hsr : (0 < sr)%Z.
Hypothesis H0 : 0 <= fmin.
Hypothesis H1 : fmin < fmax.
Hypothesis H2 : fmax <= IZR sr / 2.

Lemma n_pow : exists m, (2 <= m <= 30)%Z /\ n = (2 ^ m)%Z.
Proof.
  destruct Hp as (m & Hm & E). exists m. split; auto. split.
  - destruct (Z_lt_ge_dec m 2) as [L|]; [|lia]. exfalso. assert (2 ^ m <= 2 ^ 1)%Z by (apply Z.pow_le_mono_r; lia). change (2 ^ 1)%Z with 2%Z in *. lia.
  - assert (m < 31)%Z; [|lia]. apply (Z.pow_lt_mono_r_iff 2); lia.
Qed.
Lemma n_even' : Z.even n = true.
Proof. destruct n_pow as (m & Hm & ->). apply Z.even_pow. lia. Qed.
Lemma spectrogram_vals : (nm <= n)%Z ->
  melspectrogram_py real_arith real_trig real_mathf (map Fin x) sr n nm (Fin fmin) (Fin fmax) = Ret (map Fin (vals nm n sr fmin fmax (re_power x))).
Proof. intros B. destruct n_pow as (m & Hm & E). apply (melspectrogram_run x m); auto. lra. Qed.
Lemma n_small : (2 <= n < 2 ^ 31 - 1)%Z.
Proof.
  destruct n_pow as (m & Hm & E). assert (2 ^ m <= 2 ^ 30)%Z by (apply Z.pow_le_mono_r; lia). change (2 ^ 30)%Z with 1073741824%Z in *. change (2 ^ 31)%Z with 2147483648%Z in *. lia.
Qed.
Lemma spectrogram_re : (nm <= n)%Z -> (forall m f, (1 <= m <= nm)%Z -> evenly fmin fmax nm m f -> clear_of_bins sr n f) ->
  exists out, melspectrogram_py real_arith real_trig real_mathf (map Fin x) sr n nm (Fin fmin) (Fin fmax) = Ret (map Fin out) /\ mel_response sr n nm fmin fmax (re_power x) out.
Proof.
  intros B C. eexists. split; [apply spectrogram_vals; auto|]. pose proof n_small as NS.
  apply response_of; auto; [lia|apply n_even'|]. rewrite <- clear_b; auto; [lia|apply n_even'].
Qed.
Lemma spectrogram_overrun : (n < nm < 2 ^ 31 - 1)%Z ->
  melspectrogram_py real_arith real_trig real_mathf (map Fin x) sr n nm (Fin fmin) (Fin fmax) = Err OutOfBounds.
Proof. intros B. destruct n_pow as (m & Hm & E). apply (melspectrogram_overrun x m); auto. lra. Qed.
End Spectrogram.

(** The imaginary parts are lost. *)
Lemma power_re x k : (0 <= k <= zlen x / 2)%Z -> dft_im (zlen x) (windowed x) (repeat 0 (length x)) k = 0 ->
  entry (re_power x) k = power (windowed x) k.
Proof.
  intros Hk E. unfold re_power. rewrite entry_map by lia. unfold power. cbv zeta.
  assert (LW : length (windowed x) = length x). { unfold windowed. rewrite map_length, zrange_length. unfold zlen. lia. }
  assert (ZW : zlen (windowed x) = zlen x) by (unfold zlen; now rewrite LW).
  rewrite LW, ZW, E. unfold Rdiv. ring.
Qed.
Lemma tri_ext sr n s1 s2 a b c : (forall k, (0 <= k <= n / 2)%Z -> entry s1 k = entry s2 k) -> tri_response sr n s1 a b c = tri_response sr n s2 a b c.
Proof. intros H. unfold tri_response. apply sumr_ext. intros k Hk. rewrite H by lia. reflexivity. Qed.

(** ** Three filters with simple centers *)
Lemma mel_0 : melR 0 = 0.
Proof. unfold melR, log10R. replace (1 + 0 / 700) with 1 by lra. rewrite ln_1. lra. Qed.
Lemma mel_half f g : -700 < f -> 1 + g / 700 = (1 + f / 700) ^ 2 -> melR f = melR g / 2.
Proof.
  intros Hf E. unfold melR, log10R. pose proof ln10_pos. rewrite E. replace ((1 + f / 700) ^ 2) with ((1 + f / 700) * (1 + f / 700)) by ring.
  rewrite ln_mult by lra. field. lra.
Qed.
Lemma three f g : -700 < f -> -700 < g -> 1 + g / 700 = (1 + f / 700) ^ 2 -> center 0 g 1 0 = 0 /\ center 0 g 1 1 = f /\ center 0 g 1 2 = g.
Proof.
  intros Hf Hg E. pose proof (mel_half f g Hf E) as MH. pose proof mel_0 as M0.
  split; [|split]; symmetry; apply evenly_center; split; auto; try lra; rewrite M0; change (1 + 1)%Z with 2%Z; [rewrite MH|]; field.
Qed.

(** One filter up to 5600 Hz at a sampling rate of 9700 Hz: the highest bin is the one after the spectrum. *)
Lemma bin_value nm nf sr fmin fmax n f k : (0 <= nm < 2 ^ 31 - 1)%Z -> (0 <= nf < 2 ^ 31 - 1)%Z -> center fmin fmax nm n = f ->
  IZR k <= IZR (nf + 1) * (f / IZR sr) < IZR k + 1 -> (0 <= k < 2 ^ 31)%Z ->
  mel_bin real_arith real_trig real_mathf (real_mel nm fmin fmax nf sr) n = Ret k.
Proof.
  intros Hnm Hnf <- B Hk. unfold mel_bin. rewrite center_run by auto. cbn [bind]. unfold eml_audio_mel_bin. cbn [Audio.n_fft real_mel Audio.samplerate].
  change (2 ^ 31)%Z with 2147483648%Z in *. rewrite chk_int32_ok by (unfold int32_ok; lia). cbn [bind].
  cbn [mf_floor real_mathf nmul ndiv real_arith lift2 t_of_Z real_trig]. unfold floorR.
  rewrite (Zfloor_imp k) by (rewrite (plus_IZR k 1); exact B). change (2 ^ 31)%Z with 2147483648%Z.
  destruct (Z.leb_spec (- (2147483648)) k); [|lia]. destruct (Z.ltb_spec k 2147483648); [|lia]. reflexivity.
Qed.
Lemma foldM_last {X} (body : X -> Z -> res X) v n e : (0 <= n)%Z -> (forall s i, (0 <= i < n)%Z -> exists s', body s i = Ret s') -> (forall s, body s n = Err e) ->
  foldM body v (zrange (n + 1)) = Err e.
Proof.
  intros Hn H E. rewrite zrange_S by lia. rewrite foldM_app.
  destruct (foldM_range_inv body (fun _ _ => True) n v) as (s & -> & _); auto.
  - intros i s Hi _. destruct (H s i Hi) as [s' E']. eauto.
  - cbn [bind foldM]. rewrite E. reflexivity.
Qed.
Lemma overread s : zlen s = 5%Z ->
  melfilter_py real_arith real_trig real_mathf (map Fin s) 9700 8 1 (Fin 0) (Fin 5600) = Err OutOfBounds.
Proof.
  intros SL. unfold melfilter_py. change (num real_arith) with xreal. pose proof (Res.zlen_map Fin s) as ZM.
  rewrite chk_int32_ok by (unfold int32_ok; cbn; lia). cbn [bind]. rewrite ZM, SL. change (5 =? 1 + 8 ÷ 2)%Z with true. cbn [negb].
  unfold eml_audio_melspec. cbn [Audio.n_mels Audio.n_fft v_length v_start]. rewrite chk_int32_ok by (unfold int32_ok; cbn; lia). cbn [bind].
  change (1 + 8 ÷ 2)%Z with 5%Z. change (5 <=? 5)%Z with true. change (1 =? 1)%Z with true. cbn [negb].
  change (zrange 1) with [0%Z]. cbn [foldM]. change (mk_mel real_arith 1 (Fin 0) (Fin 5600) 8 9700) with (real_mel 1 0 5600 8 9700).
  destruct (three 1400 5600 ltac:(lra) ltac:(lra) ltac:(field_simplify; lra)) as (C0 & C1 & C2).
  unfold mel_value. change (0 + 1 - 1)%Z with 0%Z. change (0 + 1 + 1)%Z with 2%Z. change (0 + 1)%Z with 1%Z.
  rewrite (bin_value 1 8 9700 0 5600 0 0 0) by (first [lia | assumption | change (8 + 1)%Z with 9%Z; lra]).
  rewrite (bin_value 1 8 9700 0 5600 1 1400 1) by (first [lia | assumption | change (8 + 1)%Z with 9%Z; lra]).
  rewrite (bin_value 1 8 9700 0 5600 2 5600 5) by (first [lia | assumption | change (8 + 1)%Z with 9%Z; lra]).
  cbn [bind]. change (0 <? 0)%Z with false. change (5 <? 5)%Z with false.
  rewrite !center_run by lia. cbn [bind v_start]. cbv zeta.
  assert (EN : forall p, (0 <= p < 5)%Z -> zget (map Fin s) (0 + p) = Ret (Fin (entry s p))).
  { intros p Hp. rewrite Z.add_0_l. rewrite (zget_nth _ _ (Fin 0)) by (rewrite Res.zlen_map; lia). f_equal. apply (map_nth Fin). }
  match goal with |- context[foldM ?b (nzero real_arith) (zrange (1 - 0 + 1))] =>
    destruct (foldM_range_inv b (fun _ _ => True) (1 - 0 + 1)%Z (nzero real_arith)) as (v & E & _); auto; [lia|intros i v0 Hi _; rewrite EN by lia; cbn [bind]; eauto|rewrite E; clear E]
  end.
  cbn [bind]. change (5 - 1)%Z with (3 + 1)%Z. rewrite (foldM_last _ v 3 OutOfBounds); [reflexivity|lia| |].
  - intros v0 i Hi. rewrite EN by lia. cbn [bind]. eauto.
  - intros v0. assert (Z5 : zget (map Fin s) (0 + (1 + 3 + 1)) = Err OutOfBounds).
    { unfold zget. change (0 + (1 + 3 + 1) <? 0)%Z with false. rewrite (proj2 (nth_error_None _ _)); [reflexivity|]. rewrite map_length. unfold zlen in SL. change (Z.to_nat (0 + (1 + 3 + 1))) with 5%nat. lia. }
    cbv beta zeta. change (num real_arith) with xreal. rewrite Z5. reflexivity.
Qed.

(** At 5680 Hz the first bin (710 Hz) is just above the center (700 Hz). *)
Lemma near_bin : evenly 0 2100 1 1 700 /\ ~ clear_of_bins 5680 8 700.
Proof.
  destruct (three 700 2100 ltac:(lra) ltac:(lra) ltac:(field_simplify; lra)) as (_ & C1 & _).
  split; [rewrite <- C1 at 1; apply center_evenly|]. intros C. apply (C 1%Z); [change (8 / 2)%Z with 4%Z; lia|]. unfold bin_freq. lra.
Qed.

(** A block of 8 samples whose windowed transform is imaginary. *)
Definition odd_block : list R := [0; 0; hann 8 6; 0; 0; 0; - hann 8 2; 0].
Lemma hann_pos i : (1 <= i <= 6)%Z -> 0 < hann 8 i.
Proof.
  intros Hi. unfold hann. change (8 - 1)%Z with 7%Z. set (t := PI * IZR i / 7). replace (2 * PI * IZR i / 7) with (2 * t) by (unfold t; field).
  rewrite cos_2a_sin. assert (S : 0 < sin t); [|nra]. pose proof PI_RGT_0 as P.
  assert (1 <= IZR i <= 6) by (split; apply IZR_le; lia).
  apply sin_gt_0; unfold t; [nra|]. apply Rmult_lt_reg_r with 7; [lra|]. unfold Rdiv. rewrite Rmult_assoc, Rinv_l by lra. nra.
Qed.
Lemma odd_windowed : windowed odd_block = [0; 0; hann 8 2 * hann 8 6; 0; 0; 0; - (hann 8 2 * hann 8 6); 0].
Proof.
  unfold windowed. change (zlen odd_block) with 8%Z. change (zrange 8) with [0; 1; 2; 3; 4; 5; 6; 7]%Z. cbn [map].
  unfold entry, odd_block. repeat match goal with |- context[Z.to_nat ?z] => let v := eval compute in (Z.to_nat z) in change (Z.to_nat z) with v end. cbn [nth].
  repeat (f_equal; try ring).
Qed.
Lemma theta_6 k : (0 <= k)%Z -> cos (theta 8 6 k) = cos (theta 8 2 k).
Proof.
  intros Hk. replace (theta 8 6 k) with (- theta 8 2 k + 2 * INR (Z.to_nat k) * PI).
  - rewrite cos_period, cos_neg. reflexivity.
  - unfold theta. rewrite INR_IZR_INZ, Z2Nat.id by lia. field.
Qed.
Lemma odd_re k : (0 <= k)%Z -> dft_re 8 (windowed odd_block) (repeat 0 8) k = 0.
Proof.
  intros Hk. rewrite odd_windowed. unfold dft_re. change (zrange 8) with [0; 1; 2; 3; 4; 5; 6; 7]%Z. cbn [map rsum].
  unfold entry. repeat match goal with |- context[Z.to_nat ?z] => let v := eval compute in (Z.to_nat z) in change (Z.to_nat z) with v end. cbn [nth repeat].
  rewrite (theta_6 k) by auto. unfold rsum; cbn [fold_right]; ring.
Qed.
Lemma odd_im : dft_im 8 (windowed odd_block) (repeat 0 8) 1 = - 2 * (hann 8 2 * hann 8 6).
Proof.
  rewrite odd_windowed. unfold dft_im. change (zrange 8) with [0; 1; 2; 3; 4; 5; 6; 7]%Z. cbn [map rsum].
  unfold entry. repeat match goal with |- context[Z.to_nat ?z] => let v := eval compute in (Z.to_nat z) in change (Z.to_nat z) with v end. cbn [nth repeat].
  assert (S2 : sin (theta 8 2 1) = 1). { replace (theta 8 2 1) with (PI / 2) by (unfold theta; field). apply sin_PI2. }
  assert (S6 : sin (theta 8 6 1) = -1). { replace (theta 8 6 1) with (3 * (PI / 2)) by (unfold theta; field). apply sin_3PI2. }
  rewrite S2, S6. unfold rsum; cbn [fold_right]; ring.
Qed.
Lemma odd_power : 0 < power (windowed odd_block) 1.
Proof.
  unfold power. cbv zeta. assert (LW : length (windowed odd_block) = 8%nat) by (rewrite odd_windowed; reflexivity).
  assert (ZW : zlen (windowed odd_block) = 8%Z) by (unfold zlen; rewrite LW; reflexivity). rewrite LW, ZW, odd_im.
  pose proof (hann_pos 2 ltac:(lia)) as P2. pose proof (hann_pos 6 ltac:(lia)) as P6.
  assert (P : 0 < hann 8 2 * hann 8 6) by (apply Rmult_lt_0_compat; auto). pose proof (pow2_ge_0 (dft_re 8 (windowed odd_block) (repeat 0 8) 1)). set (re := dft_re _ _ _ _) in *. nra.
Qed.
Lemma lost_imaginary : exists x out a b c,
  zlen x = 8%Z /\ melspectrogram_py real_arith real_trig real_mathf (map Fin x) 5600 8 1 (Fin 0) (Fin 2100) = Ret (map Fin out) /\
  evenly 0 2100 1 0 a /\ evenly 0 2100 1 1 b /\ evenly 0 2100 1 2 c /\ clear_of_bins 5600 8 b /\
  entry out 0 = 0 /\ 0 < tri_response 5600 8 (map (power (windowed x)) (zrange 5)) a b c.
Proof.
  destruct (three 700 2100 ltac:(lra) ltac:(lra) ltac:(field_simplify; lra)) as (C0 & C1 & C2).
  pose proof (center_evenly 0 2100 1 0) as E0. pose proof (center_evenly 0 2100 1 1) as E1. pose proof (center_evenly 0 2100 1 2) as E2. rewrite C0 in E0. rewrite C1 in E1. rewrite C2 in E2.
  assert (CL : clear_of_bins 5600 8 700).
  { intros k Hk [K1 K2]. unfold bin_freq in *. assert (1 < IZR k) by lra. assert (IZR k < 2) by lra. apply lt_IZR in H, H0. lia. }
  destruct (spectrogram_re odd_block 1 5600 0 2100) as (out & EO & LO & RO); try (change (zlen odd_block) with 8%Z); try lia; try lra.
  { exists 3%Z. split; [lia|reflexivity]. }
  { intros m f Hm Ef. assert (m = 1%Z) by lia. subst m. rewrite (evenly_center _ _ _ _ _ Ef), C1. exact CL. }
  exists odd_block, out, 0, 700, 2100. split; [reflexivity|]. split; [exact EO|]. do 3 (split; [assumption|]). split; [exact CL|]. split.
  - change (entry out 0) with (entry out (1 - 1)). rewrite (RO 1%Z 0 700 2100 ltac:(lia) E0 E1 E2). change (zlen odd_block) with 8%Z. unfold tri_response.
    rewrite (sumr_ext _ _ (fun _ => 0)); [apply sumr_zero|]. intros k Hk. unfold re_power. change (zlen odd_block) with 8%Z. change (length odd_block) with 8%nat.
    rewrite entry_map by lia. rewrite odd_re by lia. unfold Rdiv. ring.
  - unfold tri_response. change (1 + 8 / 2)%Z with 5%Z. rewrite (sumr_split 1 4) by lia. change 4%Z with (1 + 3)%Z. rewrite (sumr_split 1 3) by lia. rewrite !sumr_1. 
    assert (NN : forall k, (0 <= k < 5)%Z -> 0 <= entry (map (power (windowed odd_block)) (zrange 5)) k * triangle 0 700 2100 (bin_freq 5600 8 k)).
    { intros k Hk. rewrite entry_map by lia. apply Rmult_le_pos; [|apply Rmax_l]. unfold power. cbv zeta. assert (LW : zlen (windowed odd_block) = 8%Z) by (rewrite odd_windowed; reflexivity). rewrite LW. nra. }
    assert (T1 : triangle 0 700 2100 (bin_freq 5600 8 (1 + 0)) = 1).
    { unfold triangle, bin_freq. change (1 + 0)%Z with 1%Z. replace ((1 * 5600 / 8 - 0) / (700 - 0)) with 1 by lra. replace ((2100 - 1 * 5600 / 8) / (2100 - 700)) with 1 by lra. rewrite Rmin_left, Rmax_right; lra. }
    rewrite T1, (entry_map _ 5 (1 + 0)) by lia. pose proof odd_power. change (1 + 0)%Z with 1%Z. pose proof (NN 0%Z ltac:(lia)).
    match goal with |- 0 < _ + (_ + ?r) => assert (0 <= r) by (apply sumr_nonneg; intros i Hi; apply NN; lia); lra end.
Qed.
