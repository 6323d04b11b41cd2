(** Power spectra, the Hann window, and mel spectrograms. *)
From Coq Require Import ZArith List Bool Lia Reals Lra Psatz.
From Flocq Require Import Core.
From Verif.Base Require Import Res CInt ListX Loops Arith Kernels RealSum.
From Verif.Model Require Import Common Vector Fft Audio.
From Verif.Spec Require Import RealSpec FftSpec AudioSpec.
From Verif.Proof Require Import Vector Fft FftReal Mel.
Import ListNotations.
Open Scope Z_scope.
Open Scope res_scope.

(** ** The power spectrum *)
Section Any.
Context (A : arith) (T : trig A) (M : mathf A).
Lemma power_ok rb rfft ob out n_fft : 0 <= n_fft -> inside rb rfft -> inside ob out ->
  if (1 + n_fft / 2 <? v_length rfft) && (v_length out =? 1 + n_fft / 2)
  then exists ob', eml_audio_power_spectrogram A T M rb rfft ob out n_fft = Ret (EmlOk, ob') /\ zlen ob' = zlen ob /\
    (forall i x, 0 <= i <= n_fft / 2 -> zget rb (v_start rfft + i) = Ret x ->
       zget ob' (v_start out + i) = Ret (nmul A (ndiv A (none_ A) (t_of_Z T n_fft)) (mf_square M (nabs A x)))) /\
    (forall j, j < v_start out \/ v_start out + v_length out <= j -> zget ob' j = zget ob j)
  else eml_audio_power_spectrogram A T M rb rfft ob out n_fft = Ret (EmlSizeMismatch, ob).
Proof.
  intros Hn (R0 & R1 & R2) (O0 & O1 & O2). unfold eml_audio_power_spectrogram. rewrite Z.quot_div_nonneg by lia. cbv zeta.
  assert (Q : 0 <= n_fft / 2) by (apply Z.div_pos; lia).
  destruct (Z.ltb_spec (1 + n_fft / 2) (v_length rfft)) as [L|L]; cbn [negb andb]; [|reflexivity].
  destruct (Z.eqb_spec (v_length out) (1 + n_fft / 2)) as [E|E]; cbn [negb]; [|reflexivity].
  match goal with |- context[foldM ?f _ _] => set (body := f) end.
  destruct (foldM_range_inv body (fun k ob' => zlen ob' = zlen ob /\
      (forall i x, 0 <= i < k -> zget rb (v_start rfft + i) = Ret x ->
         zget ob' (v_start out + i) = Ret (nmul A (ndiv A (none_ A) (t_of_Z T n_fft)) (mf_square M (nabs A x)))) /\
      (forall j, j < v_start out \/ v_start out + k <= j -> zget ob' j = zget ob j)) (1 + n_fft / 2) ob) as (ob' & EB & I1 & I2 & I3); [lia| | |].
  - split; auto. split; auto. intros; lia.
  - intros i o Hi (I1 & I2 & I3). unfold body. destruct (zget_ok rb (v_start rfft + i) ltac:(lia)) as [x Ex]. rewrite Ex. cbn [bind]. cbv zeta.
    rewrite zset_ok by lia. eexists. split; [reflexivity|]. rewrite zlen_list_set. split; auto. split.
    + intros j y Hj Ey. rewrite zget_list_set by lia. destruct (Z.eqb_spec (v_start out + i) (v_start out + j)).
      * assert (i = j) by lia. subst j. rewrite Ex in Ey. injection Ey as ->. reflexivity.
      * apply I2; auto. lia.
    + intros j Hj. rewrite zget_list_set by lia. destruct (Z.eqb_spec (v_start out + i) j); [lia|]. apply I3. lia.
  - rewrite EB. cbn [bind]. exists ob'. split; auto. split; auto. split.
    + intros i x Hi. apply I2. lia.
    + intros j Hj. apply I3. lia.
Qed.
(** With the vectors at the beginning of their buffers. *)
Lemma power_front (rb ob : list (num A)) f (n_fft : Z) L : 0 <= n_fft -> 1 + n_fft / 2 < L -> L <= zlen rb -> 1 + n_fft / 2 <= zlen ob ->
  (forall i, 0 <= i <= n_fft / 2 -> zget rb i = Ret (f i)) ->
  eml_audio_power_spectrogram A T M rb (mk_vec 0 L) ob (mk_vec 0 (1 + n_fft / 2)) n_fft =
  Ret (EmlOk, map (fun i => nmul A (ndiv A (none_ A) (t_of_Z T n_fft)) (mf_square M (nabs A (f i)))) (zrange (1 + n_fft / 2)) ++ skipn (Z.to_nat (1 + n_fft / 2)) ob).
Proof.
  intros Hn H1 H2 H3 H4. unfold eml_audio_power_spectrogram. rewrite Z.quot_div_nonneg by lia. cbv zeta. cbn [v_length v_start].
  assert (Q : 0 <= n_fft / 2) by (apply Z.div_pos; lia).
  destruct (Z.ltb_spec (1 + n_fft / 2) L); [|lia]. rewrite Z.eqb_refl. cbn [negb].
  erewrite fill_app_ext with (g := fun i => nmul A (ndiv A (none_ A) (t_of_Z T n_fft)) (mf_square M (nabs A (f i)))); [reflexivity|lia|].
  intros o i Hi. rewrite !Z.add_0_l. rewrite H4 by lia. reflexivity.
Qed.
(** ** The window and the mean *)
Lemma hann_ok (data : list (num A)) n : n = zlen data ->
  eml_signal_hann_apply A T data n = Ret (EmlOk, map (fun i => nmul A (t_D_down T (nmul (t_D T) (nhalf (t_D T)) (nsub (t_D T) (none_ (t_D T)) (t_D_cos T (turn A T i (n - 1)))))) (znth (nzero A) data i)) (zrange n)).
Proof.
  intros ->. unfold eml_signal_hann_apply. pose proof (zlen_nonneg data).
  match goal with |- context[foldM ?f _ _] => set (body := f) end.
  destruct (foldM_update (fun i x => nmul A (t_D_down T (nmul (t_D T) (nhalf (t_D T)) (nsub (t_D T) (none_ (t_D T)) (t_D_cos T (turn A T i (zlen data - 1)))))) x) data (zlen data)) as (o & E & I1 & I2 & I3); [lia|].
  change (foldM body data (zrange (zlen data)) = Ret o) in E. rewrite E. cbn [bind]. do 2 f_equal.
  apply zget_eq. { rewrite Kernels.zlen_map, zlen_zrange'; lia. }
  intros i Hi. assert (zget data i = Ret (znth (nzero A) data i)) by (apply zget_znth; lia). erewrite I2 by (eauto; lia). 
  match goal with |- _ = zget (map ?f _) _ => pose proof (buf_get (zlen data) f i ltac:(lia)) as B end. unfold buf in B. rewrite B. reflexivity.
Qed.
End Any.

Open Scope R_scope.
Lemma hann_real x : (2 <= zlen x)%Z ->
  eml_signal_hann_apply real_arith real_trig (map Fin x) (zlen x) = Ret (EmlOk, map Fin (windowed x)).
Proof.
  intros H. rewrite (hann_ok real_arith real_trig (map Fin x)) by (symmetry; apply Res.zlen_map).
  do 2 f_equal. unfold windowed. rewrite map_map. apply map_ext_in. intros i Hi. apply Kernels.zrange_In in Hi.
  change (nzero real_arith) with (Fin 0). unfold znth. rewrite (map_nth Fin). cbn. fold (entry x i). f_equal. unfold hann. lra.
Qed.
Lemma mean_real x n : (1 <= n)%Z -> zlen x = n -> eml_signal_mean real_arith real_trig (map Fin x) n = Ret (Fin (rsum x / IZR n)).
Proof.
  intros Hn HL. unfold eml_signal_mean. change (nzero real_arith) with (Fin 0).
  rewrite (foldM_sumr _ (entry x)).
  - cbn [bind]. rewrite rsum_sumr, HL, Rplus_0_l. reflexivity.
  - intros s i Hi. rewrite (zget_nth _ _ (Fin 0)) by (rewrite Res.zlen_map; lia). rewrite (map_nth Fin). reflexivity.
Qed.

Lemma val_ext nm nf sr fmin fmax s1 s2 m : (0 <= nm < 2 ^ 31 - 1)%Z -> (0 <= nf < 2 ^ 31 - 1)%Z -> Z.even nf = true -> (0 < sr)%Z -> 0 <= fmin -> fmin <= fmax -> fmax <= IZR sr / 2 -> (1 <= m <= nm)%Z ->
  (forall k, (0 <= k <= nf / 2)%Z -> entry s1 k = entry s2 k) -> val nm nf sr fmin fmax s1 m = val nm nf sr fmin fmax s2 m.
Proof.
  intros Hn Hf Hev Hsr H0 H1 H2 Hm E. unfold val.
  pose proof (b_range nm nf sr fmin fmax Hn Hf Hev Hsr H0 H1 H2 (m - 1) ltac:(lia)).
  pose proof (b_range nm nf sr fmin fmax Hn Hf Hev Hsr H0 H1 H2 m ltac:(lia)).
  pose proof (b_range nm nf sr fmin fmax Hn Hf Hev Hsr H0 H1 H2 (m + 1) ltac:(lia)).
  f_equal; apply sumr_ext; intros d Hd; cbv zeta; rewrite E; auto; lia.
Qed.

Section Run.
Context (x : list R) (m nm sr : Z) (fmin fmax : R).
Let n := zlen x.
Hypothesis Hm : (2 <= m <= 30)%Z.
Hypothesis Hx : n = (2 ^ m)%Z.
Hypothesis Hnm : (0 <= nm)%Z.
Hypothesis Hsr : (0 < sr)%Z.
Hypothesis H0 : 0 <= fmin.
Hypothesis H1 : fmin <= fmax.
Hypothesis H2 : fmax <= IZR sr / 2.

Lemma n_range : (4 <= n <= 2 ^ 30)%Z.
Proof. rewrite Hx. change 4%Z with (2 ^ 2)%Z. split; apply Z.pow_le_mono_r; lia. Qed.
Lemma n_even : Z.even n = true.
Proof. rewrite Hx. apply Z.even_pow. lia. Qed.

(** Up to the filterbank. *)
Let zs := repeat 0 (length x).
Let X k := dft_re n (windowed x) zs k.
Let Y k := dft_im n (windowed x) zs k.
Let spec := re_power x ++ skipn (Z.to_nat (1 + n / 2)) (map Y (zrange n)).
Lemma zlen_windowed : zlen (windowed x) = n.
Proof. unfold windowed. rewrite Res.zlen_map, zlen_zrange'. pose proof (zlen_nonneg x). fold n. lia. Qed.
Lemma zlen_zs : zlen zs = n.
Proof. unfold zs, n, zlen. now rewrite repeat_length. Qed.
Lemma half_n : (0 <= n / 2 /\ 1 + n / 2 < n)%Z.
Proof. pose proof n_range. split; [apply Z.div_pos; lia|]. assert (n / 2 <= n - 2)%Z; [|lia]. pose proof (Z.mul_div_le n 2 ltac:(lia)). lia. Qed.
Lemma spec_len : zlen spec = n.
Proof.
  pose proof half_n. unfold spec. rewrite zlen_app. unfold re_power. fold n. rewrite zlen_skipn by lia. rewrite !Res.zlen_map, !zlen_zrange'. lia.
Qed.
Lemma spec_entry k : (0 <= k <= n / 2)%Z -> entry spec k = entry (re_power x) k.
Proof.
  intros Hk. unfold entry, spec. apply app_nth1. unfold re_power. rewrite map_length, zrange_length. fold n. lia.
Qed.

Lemma spectrogram_front params t temp :
  Audio.n_fft real_arith params = n -> Audio.n_mels real_arith params = nm -> (nm < 2 ^ 31)%Z -> zlen temp = n ->
  eml_fft_forward real_arith t (map Fin (windowed x)) (map Fin zs) n = Ret (EmlOk, map (fun k => Fin (X k)) (zrange n), map (fun k => Fin (Y k)) (zrange n)) ->
  eml_audio_melspectrogram real_arith real_trig real_mathf params t (map Fin x) n temp n =
  let* (e, inout) := eml_audio_melspec real_arith real_trig real_mathf params (map Fin spec) (mk_vec 0 n) (map Fin (map X (zrange n))) (mk_vec 0 nm) in
  Ret (e, inout, map Fin spec).
Proof.
  intros Pn Pm Bn Lt EF. unfold eml_audio_melspectrogram. pose proof n_range as NR. change (2 ^ 30)%Z with 1073741824%Z in NR. change (2 ^ 31)%Z with 2147483648%Z in Bn. pose proof half_n as HN.
  rewrite Pn, Pm. rewrite Z.quot_div_nonneg by lia. rewrite chk_int32_ok by (unfold int32_ok; lia). cbn [bind].
  rewrite hann_real by (fold n; lia). cbn [bind].
  destruct (vector_set_value_ok temp (mk_vec 0 n) (nzero real_arith)) as (d & ED & LD & GD). { split; [|split]; cbn [v_start v_length]; lia. }
  rewrite ED. cbn [bind]. assert (d = map Fin zs) as ->.
  { apply zget_eq. { rewrite Res.zlen_map, zlen_zs. lia. }
    intros i Hi. rewrite GD. cbn [v_start v_length]. destruct (Z.leb_spec 0 i); [|lia]. destruct (Z.ltb_spec i (0 + n)); [|lia]. cbn [andb].
    rewrite (zget_nth _ _ (Fin 0)) by (rewrite Res.zlen_map, zlen_zs; lia). rewrite (map_nth Fin). unfold zs. rewrite nth_repeat. reflexivity. }
  unfold to_uint64, to_unsigned. rewrite Z.mod_small by lia. rewrite EF. cbn [bind].
  unfold eml_vector_view. rewrite chk_int32_ok by (unfold int32_ok; lia). cbn [bind v_start v_length]. rewrite !Z.sub_0_r. change (0 + 0)%Z with 0%Z.
  rewrite (power_front real_arith real_trig real_mathf _ _ (fun k => Fin (X k))) .
  2: lia. 2: lia. 2: { rewrite Res.zlen_map, zlen_zrange'; lia. } 2: { rewrite Res.zlen_map, zlen_zrange'; lia. }
  2: { intros i Hi. apply (buf_get n (fun k => Fin (X k))). lia. }
  cbn [bind]. rewrite chk_int32_ok by (unfold int32_ok; lia). cbn [bind].
  assert (ES : map (fun i => nmul real_arith (ndiv real_arith (none_ real_arith) (t_of_Z real_trig n)) (mf_square real_mathf (nabs real_arith (Fin (X i))))) (zrange (1 + n / 2)) ++
      skipn (Z.to_nat (1 + n / 2)) (map (fun k => Fin (Y k)) (zrange n)) = map Fin spec).
  { unfold spec, re_power. rewrite map_app. f_equal.
    - fold n. rewrite map_map. apply map_ext. intros k. cbn. f_equal. fold zs. fold (X k). pose proof (pow2_abs (X k)) as PA. cbn in PA. rewrite PA. unfold Rdiv. lra.
    - rewrite <- (map_map Y Fin). rewrite !skipn_map. reflexivity. }
  change (num real_arith) with xreal in *. rewrite ES. rewrite map_map. reflexivity.
Qed.

Let out := map (fun i => val nm n sr fmin fmax (re_power x) (i + 1)) (zrange nm).
Let params := real_mel nm fmin fmax n sr.

Lemma table_forward : exists t,
  eml_fft_fill real_arith real_trig (mk_fft real_arith (Z.quot n 2) (repeat (Fin 0) (Z.to_nat (Z.quot n 2))) (repeat (Fin 0) (Z.to_nat (Z.quot n 2)))) n = Ret (EmlOk, t) /\
  eml_fft_forward real_arith t (map Fin (windowed x)) (map Fin zs) n = Ret (EmlOk, map (fun k => Fin (X k)) (zrange n), map (fun k => Fin (Y k)) (zrange n)).
Proof.
  pose proof n_range. pose proof half_n. rewrite Z.quot_div_nonneg by lia.
  apply (fft_dft n m); auto; try lia; try (unfold zlen; rewrite repeat_length; lia); [apply zlen_windowed|apply zlen_zs].
Qed.

Lemma value_ok i : (nm < 2 ^ 31 - 1)%Z -> (0 <= i < nm)%Z ->
  mel_value real_arith real_trig real_mathf params (map Fin spec) (mk_vec 0 n) (1 + n / 2) (i + 1) = Ret (EmlOk, Fin (val nm n sr fmin fmax (re_power x) (i + 1))).
Proof.
  intros B Hi. pose proof n_range as NR. change (2 ^ 30)%Z with 1073741824%Z in NR. pose proof half_n as HN.
  rewrite <- spec_len at 1.
  assert (E31 : (2 ^ 31 = 2147483648)%Z) by reflexivity. pose proof n_even as NE.
  assert (B1 : (0 <= nm < 2 ^ 31 - 1)%Z) by lia. assert (B2 : (0 <= n < 2 ^ 31 - 1)%Z) by (clearbody n; lia).
  rewrite (val_ext nm n sr fmin fmax (re_power x) spec (i + 1) B1 B2 NE Hsr H0 H1 H2) by (lia || (intros; symmetry; apply spec_entry; auto)).
  pose proof spec_len as SL. apply value_run; auto; lia.
Qed.

Lemma melspectrogram_run : (nm <= n)%Z ->
  melspectrogram_py real_arith real_trig real_mathf (map Fin x) sr n nm (Fin fmin) (Fin fmax) = Ret (map Fin out).
Proof.
  intros B. pose proof n_range as NR. change (2 ^ 30)%Z with 1073741824%Z in NR. pose proof half_n as HN.
  unfold melspectrogram_py. pose proof (Res.zlen_map Fin x) as ZM. change (num real_arith) with xreal. rewrite ZM. fold n. rewrite Z.eqb_refl. cbn [negb].
  change (nzero real_arith) with (Fin 0). destruct table_forward as (t & ET & EF). rewrite ET. cbn [bind].
  rewrite chk_int32_ok by (unfold int32_ok; lia). cbn [bind].
  assert (LZ : forall k, (0 <= k)%Z -> zlen (repeat (Fin 0) (Z.to_nat k)) = k) by (intros; unfold zlen; rewrite repeat_length; lia).
  destruct (vector_set_ok (repeat (Fin 0) (Z.to_nat n)) (map Fin x) (mk_vec 0 n) (mk_vec 0 n) 0) as (d & ED & LD & GD);
    try (split; [|split]; cbn [v_start v_length]; rewrite ?LZ, ?ZM by lia; fold n; lia); cbn [v_start v_length]; try lia; [unfold int32_ok; lia|].
  rewrite ED. cbn [bind]. assert (d = map Fin x) as ->.
  { apply zget_eq. { rewrite LD, LZ, Res.zlen_map by lia. reflexivity. }
    intros i Hi. rewrite LD, LZ in Hi by lia. rewrite GD. cbn [v_start v_length]. destruct (Z.leb_spec (0 + 0) i); [|lia]. destruct (Z.ltb_spec i (0 + 0 + n)); [|lia]. cbn [andb]. f_equal. lia. }
  destruct (vector_set_value_ok (repeat (Fin 0) (Z.to_nat n)) (mk_vec 0 n) (Fin 0)) as (d & ED2 & LD2 & _). { split; [|split]; cbn [v_start v_length]; rewrite ?LZ by lia; lia. }
  rewrite ED2. cbn [bind]. change (mk_mel real_arith nm (Fin fmin) (Fin fmax) n sr) with params.
  rewrite LZ in LD2 by lia.
  rewrite (spectrogram_front params t d eq_refl eq_refl ltac:(change (2 ^ 31)%Z with 2147483648%Z; lia) LD2 EF).
  assert (B31 : (nm < 2 ^ 31 - 1)%Z) by (change (2 ^ 31)%Z with 2147483648%Z; clearbody n; lia).
  pose proof (melspec_fill real_arith real_trig real_mathf params (map Fin spec) (mk_vec 0 n) (map Fin (map X (zrange n))) (mk_vec 0 nm) (fun i => Fin (val nm n sr fmin fmax (re_power x) (i + 1)))) as MF.
  cbn [Audio.n_mels Audio.n_fft params real_mel v_length] in MF. fold params in MF.
  rewrite MF; clear MF; try reflexivity; try (change (2 ^ 31)%Z with 2147483648%Z; clearbody n; lia).
  2:{ rewrite !Res.zlen_map, zlen_zrange'. clearbody n; lia. }
  2:{ intros i Hi. apply value_ok; auto. }
  cbn [bind]. unfold eml_vector_view. rewrite chk_int32_ok by (unfold int32_ok; lia). cbn [bind v_start]. rewrite Z.sub_0_r.
  match goal with |- context[eml_vector_set _ _ ?src _ _] => set (io := src) end.
  assert (LIO : zlen io = n).
  { unfold io. rewrite zlen_app, zlen_skipn, !Res.zlen_map, !zlen_zrange' by lia. lia. }
  assert (IN1 : inside (repeat (Fin 0) (Z.to_nat nm)) (mk_vec 0 nm)) by (pose proof (LZ nm Hnm); split; [|split]; cbn [v_start v_length]; lia).
  assert (IN2 : inside io (mk_vec 0 nm)) by (split; [|split]; cbn [v_start v_length]; clearbody io; lia).
  destruct (vector_set_ok (repeat (Fin 0) (Z.to_nat nm)) io (mk_vec 0 nm) (mk_vec 0 nm) 0 IN1 IN2) as (r & ER & LR & GR); cbn [v_start v_length]; try lia; [unfold int32_ok; lia|].
  change (0 + 0)%Z with 0%Z. rewrite ER. cbn [bind]. f_equal. rewrite LZ in LR by lia.
  apply zget_eq. { rewrite LR. unfold out. rewrite !Res.zlen_map, zlen_zrange'. lia. }
  intros i Hi. rewrite GR. cbn [v_start v_length]. destruct (Z.leb_spec (0 + 0) i); [|lia]. destruct (Z.ltb_spec i (0 + 0 + nm)); [|lia]. cbn [andb].
  unfold io, out. rewrite (map_map (fun i => val nm n sr fmin fmax (re_power x) (i + 1)) Fin (zrange nm)). replace (0 + (i - (0 + 0)))%Z with i by lia.
  rewrite zget_app_l by (rewrite Res.zlen_map, zlen_zrange'; lia). reflexivity.
Qed.

(** More filters than samples: the binding writes past the end of its buffer. *)
Lemma melspectrogram_overrun : (n < nm < 2 ^ 31 - 1)%Z ->
  melspectrogram_py real_arith real_trig real_mathf (map Fin x) sr n nm (Fin fmin) (Fin fmax) = Err OutOfBounds.
Proof.
  intros B. pose proof n_range as NR. change (2 ^ 30)%Z with 1073741824%Z in NR. change (2 ^ 31)%Z with 2147483648%Z in B. pose proof half_n as HN.
  unfold melspectrogram_py. pose proof (Res.zlen_map Fin x) as ZM. change (num real_arith) with xreal. rewrite ZM. fold n. rewrite Z.eqb_refl. cbn [negb].
  change (nzero real_arith) with (Fin 0). destruct table_forward as (t & ET & EF). rewrite ET. cbn [bind].
  rewrite chk_int32_ok by (unfold int32_ok; lia). cbn [bind].
  assert (LZ : forall k, (0 <= k)%Z -> zlen (repeat (Fin 0) (Z.to_nat k)) = k) by (intros; unfold zlen; rewrite repeat_length; lia).
  destruct (vector_set_ok (repeat (Fin 0) (Z.to_nat n)) (map Fin x) (mk_vec 0 n) (mk_vec 0 n) 0) as (d & ED & LD & GD);
    try (split; [|split]; cbn [v_start v_length]; rewrite ?LZ, ?ZM by lia; fold n; lia); cbn [v_start v_length]; try lia; [unfold int32_ok; lia|].
  rewrite ED. cbn [bind]. assert (d = map Fin x) as ->.
  { apply zget_eq. { rewrite LD, LZ, Res.zlen_map by lia. reflexivity. }
    intros i Hi. rewrite LD, LZ in Hi by lia. rewrite GD. cbn [v_start v_length]. destruct (Z.leb_spec (0 + 0) i); [|lia]. destruct (Z.ltb_spec i (0 + 0 + n)); [|lia]. cbn [andb]. f_equal. lia. }
  destruct (vector_set_value_ok (repeat (Fin 0) (Z.to_nat n)) (mk_vec 0 n) (Fin 0)) as (d & ED2 & LD2 & _). { split; [|split]; cbn [v_start v_length]; rewrite ?LZ by lia; lia. }
  rewrite ED2. cbn [bind]. change (mk_mel real_arith nm (Fin fmin) (Fin fmax) n sr) with params.
  rewrite LZ in LD2 by lia.
  rewrite (spectrogram_front params t d eq_refl eq_refl ltac:(change (2 ^ 31)%Z with 2147483648%Z; lia) LD2 EF).
  unfold eml_audio_melspec. cbn [Audio.n_mels Audio.n_fft params real_mel v_length v_start]. rewrite Z.quot_div_nonneg by lia. rewrite chk_int32_ok by (unfold int32_ok; lia). cbn [bind].
  destruct (Z.leb_spec (1 + n / 2) n); [|lia]. rewrite Z.eqb_refl. cbn [negb].
  match goal with |- context[foldM ?f _ (zrange nm)] => set (body := f) end.
  assert (G : forall l o, (forall i, In i l -> (0 <= i < nm)%Z) -> zlen o = n -> (exists i, In i l /\ (n <= i)%Z) -> foldM body (EmlOk, o) l = Err OutOfBounds).
  { induction l as [|i l IH]; intros o Hl Lo (j & Hj & Bj); [contradiction|]. cbn [foldM]. unfold body at 1. cbv zeta. fold params.
    rewrite value_ok by (change (2 ^ 31)%Z with 2147483648%Z; lia || apply Hl; now left). cbn [bind]. replace (0 + (i + 1 - 1))%Z with i by lia.
    pose proof (Hl i ltac:(now left)). destruct (Z_lt_ge_dec i n) as [L|L].
    - rewrite zset_ok by lia. cbn [bind]. apply IH; [intros; apply Hl; now right|rewrite zlen_list_set; auto|].
      exists j. split; auto. destruct Hj as [->|]; [lia|auto].
    - assert (ZO : forall v : xreal, zset o i v = Err OutOfBounds). { intros v. unfold zset. destruct (Z.leb_spec 0 i), (Z.ltb_spec i (Z.of_nat (length o))); try reflexivity. exfalso. unfold zlen in Lo. lia. }
      rewrite ZO. reflexivity. }
  rewrite G; [reflexivity|intros i Hi; now apply Kernels.zrange_In in Hi|rewrite !Res.zlen_map, zlen_zrange'; lia|].
  exists n. split; [apply Res.zrange_In; clearbody n; lia|lia].
Qed.
End Run.
