(** Mel spectra. *)
From Coq Require Import ZArith List Bool Lia Reals Lra Psatz.
From Flocq Require Import Core.
From Verif.Base Require Import Res CInt ListX Loops Arith Kernels RealSum.
From Verif.Model Require Import Common Vector Fft Audio.
From Verif.Spec Require Import RealSpec FftSpec AudioSpec.
From Verif.Proof Require Import Fft FftReal.
Import ListNotations.
Open Scope Z_scope.
Open Scope res_scope.

(** ** Bounds, in any arithmetic *)
Section Any.
Context (A : arith) (T : trig A) (M : mathf A).

Lemma reads_ok (body : num A -> Z -> res (num A)) (sb : list (num A)) (o : Z -> Z) n v :
  (forall d, 0 <= d < n -> 0 <= o d < zlen sb) ->
  (forall val d x, zget sb (o d) = Ret x -> exists val', body val d = Ret val') ->
  exists v', foldM body v (zrange n) = Ret v'.
Proof.
  intros H1 H2. destruct (Z_le_gt_dec 0 n).
  - destruct (foldM_range_inv body (fun _ _ => True) n v) as (v' & E & _); auto; [|eauto].
    intros i s Hi _. destruct (zget_ok sb (o i) (H1 i Hi)) as [x Ex]. destruct (H2 s i x Ex) as [v' E]. eauto.
  - unfold zrange. replace (Z.to_nat n) with 0%nat by lia. cbn. eauto.
Qed.

(** [b] gives the bins; each filter that passes the checks reads inside the spectrum. *)
Definition bins_ok (params : mel A) (b : Z -> Z) (L : Z) : Prop :=
  forall m, 1 <= m <= n_mels A params -> 0 <= b (m - 1) -> b (m + 1) <= 1 + Z.quot (n_fft A params) 2 ->
    b (m - 1) <= b m <= b (m + 1) /\ b (m + 1) < L.

Lemma mel_value_total params b sb spec mb m :
  0 <= n_mels A params < 2 ^ 31 - 1 ->
  (forall n, 0 <= n <= n_mels A params + 1 -> mel_bin A T M params n = Ret (b n)) -> bins_ok params b (v_length spec) ->
  0 <= v_start spec -> v_start spec + v_length spec <= zlen sb -> mb = 1 + Z.quot (n_fft A params) 2 -> 1 <= m <= n_mels A params ->
  exists e val, mel_value A T M params sb spec mb m = Ret (e, val) /\ (e = EmlOk <-> 0 <= b (m - 1) /\ b (m + 1) <= mb) /\ (e = EmlOk \/ e = EmlUnknownError).
Proof.
  intros Hn Hb OK S0 S1 -> Hm. unfold mel_value. rewrite !Hb by lia. cbn [bind].
  destruct (Z.ltb_spec (b (m - 1)) 0). { do 2 eexists. split; [reflexivity|]. split; [split; [discriminate|lia]|auto]. }
  destruct (Z.ltb_spec (1 + Z.quot (n_fft A params) 2) (b (m + 1))). { do 2 eexists. split; [reflexivity|]. split; [split; [discriminate|lia]|auto]. }
  destruct (OK m Hm ltac:(lia) ltac:(lia)) as [[O1 O2] O3].
  unfold eml_audio_mel_center. change (2 ^ 31) with 2147483648 in Hn. rewrite !chk_int32_ok by (unfold int32_ok; lia). cbn [bind]. cbv zeta.
  match goal with |- context[foldM ?body ?v (zrange (b m - b (m - 1) + 1))] =>
    destruct (reads_ok body sb (fun d => v_start spec + (b (m - 1) + d)) (b m - b (m - 1) + 1) v) as (v1 & E1) end.
  { intros d Hd. lia. }
  { intros val d x Ex. cbv beta in Ex |- *. rewrite Ex. cbn [bind]. eauto. }
  rewrite E1. cbn [bind].
  match goal with |- context[foldM ?body ?v (zrange (b (m + 1) - b m))] =>
    destruct (reads_ok body sb (fun d => v_start spec + (b m + d + 1)) (b (m + 1) - b m) v) as (v2 & E2) end.
  { intros d Hd. lia. }
  { intros val d x Ex. cbv beta in Ex |- *. rewrite Ex. cbn [bind]. eauto. }
  rewrite E2. cbn [bind]. do 2 eexists. split; [reflexivity|]. split; [split; auto; lia|auto].
Qed.

Lemma melspec_bounds params b sb spec mb mels :
  0 <= n_mels A params < 2 ^ 31 - 1 -> 0 <= n_fft A params < 2 ^ 31 - 1 ->
  (forall n, 0 <= n <= n_mels A params + 1 -> mel_bin A T M params n = Ret (b n)) -> bins_ok params b (v_length spec) ->
  0 <= v_start spec -> v_start spec + v_length spec <= zlen sb ->
  0 <= v_start mels -> v_start mels + v_length mels <= zlen mb ->
  exists e mb', eml_audio_melspec A T M params sb spec mb mels = Ret (e, mb') /\ zlen mb' = zlen mb /\
    (forall j, j < v_start mels \/ v_start mels + v_length mels <= j -> zget mb' j = zget mb j) /\
    (e = EmlOk <-> 1 + n_fft A params / 2 <= v_length spec /\ n_mels A params = v_length mels /\
                   forall m, 1 <= m <= n_mels A params -> 0 <= b (m - 1) /\ b (m + 1) <= 1 + n_fft A params / 2).
Proof.
  intros Hn Hf Hb OK S0 S1 M0 M1. unfold eml_audio_melspec. change (2 ^ 31) with 2147483648 in *.
  rewrite <- (Z.quot_div_nonneg (n_fft A params) 2) by lia.
  assert (Q : 0 <= Z.quot (n_fft A params) 2 <= n_fft A params).
  { rewrite Z.quot_div_nonneg by lia. split; [apply Z.div_pos; lia|apply Z.div_le_upper_bound; lia]. }
  rewrite chk_int32_ok by (unfold int32_ok; lia). cbn [bind].
  destruct (Z.leb_spec (1 + Z.quot (n_fft A params) 2) (v_length spec)); cbn [negb].
  2:{ do 2 eexists. split; [reflexivity|]. split; auto. split; auto. split; [discriminate|lia]. }
  destruct (Z.eqb_spec (n_mels A params) (v_length mels)) as [EQ|NE]; cbn [negb].
  2:{ do 2 eexists. split; [reflexivity|]. split; auto. split; auto. split; [discriminate|tauto]. }
  match goal with |- context[foldM ?f _ _] => set (body := f) end.
  destruct (foldM_range_inv body (fun k st => zlen (snd st) = zlen mb /\
      (forall j, j < v_start mels \/ v_start mels + v_length mels <= j -> zget (snd st) j = zget mb j) /\
      (fst st = EmlOk <-> forall m, 1 <= m <= k -> 0 <= b (m - 1) /\ b (m + 1) <= 1 + Z.quot (n_fft A params) 2))
      (n_mels A params) (EmlOk, mb)) as ([e' mb'] & E & I1 & I2 & I3); [lia| | |].
  - cbn. split; auto. split; auto. split; auto. intros; lia.
  - intros i [e mb1] Hi (I1 & I2 & I3). cbn [fst snd] in *. unfold body. cbv zeta.
    destruct (mel_value_total params b sb spec _ (i + 1) ltac:(lia) Hb OK S0 S1 eq_refl ltac:(lia)) as (e2 & val & EV & IF & CASES).
    assert (STOP : e <> EmlOk -> exists s1, Ret (e, mb1) = Ret s1 /\ zlen (snd s1) = zlen mb /\
        (forall j, j < v_start mels \/ v_start mels + v_length mels <= j -> zget (snd s1) j = zget mb j) /\
        (fst s1 = EmlOk <-> (forall m, 1 <= m <= i + 1 -> 0 <= b (m - 1) /\ b (m + 1) <= 1 + Z.quot (n_fft A params) 2))).
    { intros N. eexists. split; [reflexivity|]. cbn [fst snd]. split; auto. split; auto. split; [congruence|]. intros X. exfalso. apply N. apply I3. intros; apply X; lia. }
    destruct e; try (apply STOP; discriminate). rewrite EV. cbn [bind].
    destruct CASES as [-> | ->].
    + rewrite zset_ok by lia. cbn [bind]. eexists. split; [reflexivity|]. cbn [fst snd]. split; [rewrite zlen_list_set; auto|]. split.
      * intros j Hj. rewrite zget_list_set by lia. destruct (Z.eqb_spec (v_start mels + (i + 1 - 1)) j); [lia|]. auto.
      * split; auto. intros _ m Hm. destruct (Z.eq_dec m (i + 1)) as [->|]; [apply IF; auto|]. apply I3; auto. lia.
    + eexists. split; [reflexivity|]. cbn [fst snd]. split; auto. split; auto. split; [discriminate|]. intros X. apply IF. apply X. lia.
  - rewrite E. exists e', mb'. cbn [fst snd] in *. split; auto. split; auto. split; auto. rewrite I3. tauto.
Qed.

(** When every filter has a value, the loop stores them. *)
Lemma melspec_fill params sb spec mb mels g :
  0 <= n_mels A params -> 0 <= n_fft A params < 2 ^ 31 - 1 -> 1 + n_fft A params / 2 <= v_length spec -> mels = mk_vec 0 (n_mels A params) -> n_mels A params <= zlen mb ->
  (forall i, 0 <= i < n_mels A params -> mel_value A T M params sb spec (1 + n_fft A params / 2) (i + 1) = Ret (EmlOk, g i)) ->
  eml_audio_melspec A T M params sb spec mb mels = Ret (EmlOk, map g (zrange (n_mels A params)) ++ skipn (Z.to_nat (n_mels A params)) mb).
Proof.
  intros Hn Hf HS -> HB HG. unfold eml_audio_melspec. change (2 ^ 31) with 2147483648 in *.
  assert (Q : 0 <= n_fft A params / 2 <= n_fft A params) by (split; [apply Z.div_pos; lia|apply Z.div_le_upper_bound; lia]).
  rewrite (Z.quot_div_nonneg (n_fft A params) 2) by lia.
  rewrite chk_int32_ok by (unfold int32_ok; lia). cbn [bind].
  destruct (Z.leb_spec (1 + n_fft A params / 2) (v_length spec)); [|lia]. cbn [negb v_length]. rewrite Z.eqb_refl. cbn [negb v_start].
  match goal with |- context[foldM ?f _ _] => set (body := f) end.
  assert (G : forall l mb0, (forall i, In i l -> 0 <= i < n_mels A params) -> foldM body (EmlOk, mb0) l = let* mb' := foldM (fun o i => zset o i (g i)) mb0 l in Ret (EmlOk, mb')).
  { induction l as [|i l IH]; intros mb0 Hl; [reflexivity|]. cbn [foldM]. unfold body at 1. cbv zeta. rewrite HG by (apply Hl; now left). cbn [bind].
    replace (0 + (i + 1 - 1)) with i by lia. destruct (zset mb0 i (g i)); [|reflexivity]. cbn [bind]. apply IH. intros; apply Hl; now right. }
  rewrite G by (intros i Hi; now apply Kernels.zrange_In in Hi). rewrite fill_app by lia. reflexivity.
Qed.
End Any.

(** ** Exact arithmetic *)
Open Scope R_scope.
Lemma ln10_pos : 0 < ln 10.
Proof. rewrite <- ln_1. apply ln_increasing; lra. Qed.
Definition center (fmin fmax : R) (n_mels n : Z) : R :=
  700 * (pow10R ((melR fmin + IZR n * ((melR fmax - melR fmin) / IZR (n_mels + 1))) / 2595) - 1).
Definition real_mel (n_mels : Z) (fmin fmax : R) (n_fft sr : Z) : mel real_arith := mk_mel real_arith n_mels (Fin fmin) (Fin fmax) n_fft sr.

Lemma center_run n_mels fmin fmax n_fft sr n : (0 <= n_mels < 2 ^ 31 - 1)%Z ->
  eml_audio_mel_center real_arith real_trig real_mathf (real_mel n_mels fmin fmax n_fft sr) n = Ret (Fin (center fmin fmax n_mels n)).
Proof.
  intros H. unfold eml_audio_mel_center. cbn [Audio.n_mels real_mel]. change (2 ^ 31)%Z with 2147483648%Z in H.
  rewrite chk_int32_ok by (unfold int32_ok; lia). reflexivity.
Qed.
Lemma mel_of_pow y : melR (700 * (pow10R (y / 2595) - 1)) = y.
Proof.
  unfold melR, log10R, pow10R. replace (1 + 700 * (exp (y / 2595 * ln 10) - 1) / 700) with (exp (y / 2595 * ln 10)) by field.
  rewrite ln_exp. pose proof ln10_pos. field. lra.
Qed.
Lemma pow_of_mel f : -700 < f -> 700 * (pow10R (melR f / 2595) - 1) = f.
Proof.
  intros H. unfold melR, log10R, pow10R. pose proof ln10_pos.
  replace (2595 * (ln (1 + f / 700) / ln 10) / 2595 * ln 10) with (ln (1 + f / 700)) by (field; lra).
  rewrite exp_ln by lra. field.
Qed.
Lemma center_evenly fmin fmax n_mels n : evenly fmin fmax n_mels n (center fmin fmax n_mels n).
Proof.
  split; [|unfold center; apply mel_of_pow]. unfold center, pow10R.
  match goal with |- context[exp ?e] => pose proof (exp_pos e); lra end.
Qed.
Lemma evenly_center fmin fmax n_mels n f : evenly fmin fmax n_mels n f -> f = center fmin fmax n_mels n.
Proof. intros [H E]. unfold center. rewrite <- E. symmetry. now apply pow_of_mel. Qed.

Lemma mel_incr f g : -700 < f -> f < g -> melR f < melR g.
Proof.
  intros H H1. unfold melR, log10R. pose proof ln10_pos. assert (ln (1 + f / 700) < ln (1 + g / 700)) by (apply ln_increasing; lra).
  apply Rmult_lt_compat_l; [lra|]. apply Rmult_lt_compat_r; [apply Rinv_0_lt_compat; lra|auto].
Qed.
Lemma center_incr fmin fmax n_mels n m : -700 < fmin -> fmin < fmax -> (0 <= n_mels)%Z -> (n < m)%Z -> center fmin fmax n_mels n < center fmin fmax n_mels m.
Proof.
  intros H0 H Hn Hm. unfold center. apply Rmult_lt_compat_l; [lra|]. apply Rplus_lt_compat_r. unfold pow10R. apply exp_increasing.
  pose proof ln10_pos. apply Rmult_lt_compat_r; [lra|]. apply Rmult_lt_compat_r; [lra|]. apply Rplus_lt_compat_l.
  pose proof (mel_incr fmin fmax H0 H). assert (0 < IZR (n_mels + 1)) by (apply IZR_lt; lia).
  apply IZR_lt in Hm. apply Rmult_lt_compat_r; [|lra]. apply Rdiv_lt_0_compat; lra.
Qed.
Lemma center_mono fmin fmax n_mels n m : -700 < fmin -> fmin <= fmax -> (0 <= n_mels)%Z -> (n <= m)%Z -> center fmin fmax n_mels n <= center fmin fmax n_mels m.
Proof.
  intros H0 H Hn Hm. destruct (Rle_lt_or_eq_dec _ _ H) as [L|E].
  - destruct (Z.eq_dec n m) as [->|]; [lra|]. left. apply center_incr; auto. lia.
  - subst. unfold center. replace (melR fmax - melR fmax) with 0 by lra. unfold Rdiv. rewrite Rmult_0_l, !Rmult_0_r. lra.
Qed.
Lemma center_first fmin fmax n_mels : -700 < fmin -> center fmin fmax n_mels 0 = fmin.
Proof. intros H. symmetry. apply evenly_center. split; auto. lra. Qed.
Lemma center_last fmin fmax n_mels : -700 < fmax -> (0 <= n_mels)%Z -> center fmin fmax n_mels (n_mels + 1) = fmax.
Proof. intros H Hn. symmetry. apply evenly_center. split; auto. assert (0 < IZR (n_mels + 1)) by (apply IZR_lt; lia). field. lra. Qed.

(** The bins. *)
Definition binR (fmin fmax : R) (n_mels n_fft sr n : Z) : Z := Zfloor (IZR (n_fft + 1) * (center fmin fmax n_mels n / IZR sr)).
Section Exact.
Context (nm nf sr : Z) (fmin fmax : R).
Hypothesis Hnm : (0 <= nm < 2 ^ 31 - 1)%Z.
Hypothesis Hnf : (0 <= nf < 2 ^ 31 - 1)%Z.
Hypothesis Hev : Z.even nf = true.
Hypothesis Hsr : (0 < sr)%Z.
Hypothesis H0 : 0 <= fmin.
Hypothesis H1 : fmin <= fmax.
Hypothesis H2 : fmax <= IZR sr / 2.
Let c := center fmin fmax nm.
Let b := binR fmin fmax nm nf sr.
Let params := real_mel nm fmin fmax nf sr.

Lemma half_nf : nf = (2 * (nf / 2))%Z.
Proof. rewrite Zeven_mod in Hev. apply Zeq_bool_eq in Hev. pose proof (Z.div_mod nf 2 ltac:(lia)). lia. Qed.
Lemma c_range n : (0 <= n <= nm + 1)%Z -> fmin <= c n <= fmax.
Proof.
  intros Hn. unfold c. pose proof (center_first fmin fmax nm ltac:(lra)) as F. pose proof (center_last fmin fmax nm ltac:(lra) ltac:(lia)) as L.
  pose proof (center_mono fmin fmax nm 0 n ltac:(lra) H1 ltac:(lia) ltac:(lia)). pose proof (center_mono fmin fmax nm n (nm + 1) ltac:(lra) H1 ltac:(lia) ltac:(lia)). lra.
Qed.
Lemma b_range n : (0 <= n <= nm + 1)%Z -> (0 <= b n <= nf / 2)%Z.
Proof.
  intros Hn. destruct (c_range n Hn) as [C0 C1]. unfold b, binR. fold (c n).
  assert (S : 0 < IZR sr) by (apply IZR_lt; lia). assert (N : 0 < IZR (nf + 1)) by (apply IZR_lt; lia).
  split.
  - apply Zfloor_lub. apply Rmult_le_pos; [lra|]. apply Rmult_le_pos; [lra|]. left; now apply Rinv_0_lt_compat.
  - assert (Zfloor (IZR (nf + 1) * (c n / IZR sr)) < nf / 2 + 1)%Z; [|lia]. apply lt_IZR.
    apply Rle_lt_trans with (IZR (nf + 1) * (c n / IZR sr)); [apply Zfloor_lb|].
    apply Rle_lt_trans with (IZR (nf + 1) * (1 / 2)).
    + apply Rmult_le_compat_l; [lra|]. apply Rmult_le_reg_r with (IZR sr); [lra|]. unfold Rdiv. rewrite Rmult_assoc, Rinv_l by lra. lra.
    + rewrite half_nf at 1. rewrite !plus_IZR, mult_IZR. lra.
Qed.
Lemma b_mono n m : (0 <= n <= m)%Z -> (b n <= b m)%Z.
Proof.
  intros Hn. unfold b, binR. apply Zfloor_le. apply Rmult_le_compat_l; [apply IZR_le; lia|].
  apply Rmult_le_compat_r; [left; apply Rinv_0_lt_compat, IZR_lt; lia|]. apply center_mono; lra || lia.
Qed.
Lemma bin_run n : (0 <= n <= nm + 1)%Z -> mel_bin real_arith real_trig real_mathf params n = Ret (b n).
Proof.
  intros Hn. unfold mel_bin, params. rewrite center_run by auto. cbn [bind]. unfold eml_audio_mel_bin. cbn [Audio.n_fft params real_mel Audio.samplerate].
  change (2 ^ 31)%Z with 2147483648%Z in Hnm, Hnf. rewrite chk_int32_ok by (unfold int32_ok; lia). cbn [bind].
  cbn [mf_floor real_mathf nmul ndiv real_arith lift2 t_of_Z real_trig]. pose proof (b_range n Hn) as B. assert (nf / 2 <= nf)%Z by (apply Z.div_le_upper_bound; lia).
  destruct (Req_EM_T (IZR sr) 0) as [E|_]; [apply eq_IZR in E; lia|].
  unfold floorR. fold (c n). change (Zfloor (IZR (nf + 1) * (c n / IZR sr))) with (b n). change (2 ^ 31)%Z with 2147483648%Z.
  destruct (Z.leb_spec (- (2147483648)) (b n)); [|lia]. destruct (Z.ltb_spec (b n) 2147483648); [|lia]. reflexivity.
Qed.

Definition clamp01 (x : R) : R := Rmax (Rmin x 1) 0.
Lemma clamp_run x : eml_max real_arith (eml_min real_arith (Fin x) (none_ real_arith)) (nzero real_arith) = Fin (clamp01 x).
Proof.
  unfold eml_max, eml_min, clamp01. cbn. destruct (Rlt_dec x 1); cbn.
  - rewrite Rmin_left by lra. destruct (Rlt_dec 0 x); [rewrite Rmax_left by lra|rewrite Rmax_right by lra]; auto.
  - rewrite Rmin_right by lra. destruct (Rlt_dec 0 1); [|lra]. rewrite Rmax_left by lra. auto.
Qed.
Lemma freq_run k : (2 <= nf)%Z -> eml_fft_freq real_arith real_trig params k = Fin (bin_freq sr nf k).
Proof.
  intros Hf. unfold eml_fft_freq, bin_freq. cbn. f_equal. rewrite Z.quot_div_nonneg by lia.
  replace (1 + nf / 2 - 1)%Z with (nf / 2)%Z by lia. assert (2 <= IZR nf) by (apply IZR_le; lia).
  replace (IZR (nf / 2)) with (IZR nf / 2). 2:{ rewrite half_nf at 1. rewrite mult_IZR. field. }
  field. lra.
Qed.

Lemma value_run spec m : (2 <= nf)%Z -> (1 + nf / 2 <= zlen spec)%Z -> (1 <= m <= nm)%Z ->
  mel_value real_arith real_trig real_mathf params (map Fin spec) (mk_vec 0 (zlen spec)) (1 + nf / 2) m =
  Ret (EmlOk, Fin (sumr (b m - b (m - 1) + 1) (fun d => let k := (b (m - 1) + d)%Z in entry spec k * clamp01 ((bin_freq sr nf k - c (m - 1)) / (c m - c (m - 1)))) +
    sumr (b (m + 1) - b m) (fun d => let k := (b m + d + 1)%Z in entry spec k * clamp01 ((c (m + 1) - bin_freq sr nf k) / (c (m + 1) - c m))))).
Proof.
  intros Hf HS Hm. unfold mel_value. rewrite !bin_run by lia. cbn [bind].
  pose proof (b_range (m - 1) ltac:(lia)). pose proof (b_range m ltac:(lia)). pose proof (b_range (m + 1) ltac:(lia)).
  pose proof (b_mono (m - 1) m ltac:(lia)). pose proof (b_mono m (m + 1) ltac:(lia)).
  destruct (Z.ltb_spec (b (m - 1)) 0); [lia|]. destruct (Z.ltb_spec (1 + nf / 2) (b (m + 1))); [lia|].
  unfold params. rewrite !center_run by auto. cbn [bind]. cbv zeta. fold params. fold (c (m - 1)) (c m) (c (m + 1)).
  assert (EN : forall p, (0 <= p < zlen spec)%Z -> zget (map Fin spec) (0 + p) = Ret (Fin (entry spec p))).
  { intros p Hp. rewrite Z.add_0_l. rewrite (zget_nth _ _ (Fin 0)) by (rewrite Res.zlen_map; lia). f_equal. apply (map_nth Fin). }
  cbn [v_start].
  match goal with |- context[foldM ?body (nzero real_arith) (zrange ?n)] =>
    assert (E1 : foldM body (Fin 0) (zrange n) = Ret (Fin (0 + sumr n (fun d => entry spec (b (m - 1) + d) * clamp01 ((bin_freq sr nf (b (m - 1) + d) - c (m - 1)) / (c m - c (m - 1)))))))
  end.
  { apply foldM_sumr. intros s i Hi. rewrite EN by lia. cbn [bind]. rewrite freq_run by auto. cbn [nsub real_arith lift2 nneg lift1 ndiv].
    rewrite clamp_run. cbn. apply (f_equal (fun r => Ret (Fin r))). f_equal. f_equal. f_equal. unfold Rdiv. f_equal. lra. }
  change (nzero real_arith) with (Fin 0) in E1 |- *. rewrite E1. clear E1. cbn [bind].
  match goal with |- context[foldM ?body ?v (zrange (b (m + 1) - b m))] =>
    assert (E1 : foldM body v (zrange (b (m + 1) - b m)) = Ret (Fin (0 + sumr (b m - b (m - 1) + 1) (fun d => entry spec (b (m - 1) + d) * clamp01 ((bin_freq sr nf (b (m - 1) + d) - c (m - 1)) / (c m - c (m - 1)))) +
       sumr (b (m + 1) - b m) (fun d => entry spec (b m + d + 1) * clamp01 ((c (m + 1) - bin_freq sr nf (b m + d + 1)) / (c (m + 1) - c m))))))
  end.
  { apply foldM_sumr. intros s i Hi. rewrite EN by lia. cbn [bind]. rewrite freq_run by auto. cbn [nsub real_arith lift2 nneg lift1 ndiv].
    replace (b m + (i + 1))%Z with (b m + i + 1)%Z by lia.
    pose proof (clamp_run ((c (m + 1) - bin_freq sr nf (b m + i + 1)) / (c (m + 1) - c m))) as CR. cbn [nsub real_arith lift2 nneg lift1 ndiv nzero] in CR |- *. rewrite CR. reflexivity. }
  rewrite E1. cbn [bind]. rewrite Rplus_0_l. reflexivity.
Qed.

(** *** Triangles *)
Hypothesis H3 : fmin < fmax.
Hypothesis Hf2 : (2 <= nf)%Z.
Lemma c_incr n m : (n < m)%Z -> c n < c m.
Proof. intros. unfold c. apply center_incr; auto; lra || lia. Qed.
Lemma b_lo n : IZR (b n) * IZR sr <= IZR (nf + 1) * c n.
Proof.
  assert (S : 0 < IZR sr) by (apply IZR_lt; lia). unfold b, binR. fold (c n). pose proof (Zfloor_lb (IZR (nf + 1) * (c n / IZR sr))) as L.
  apply Rmult_le_compat_r with (r := IZR sr) in L; [|lra]. replace (IZR (nf + 1) * (c n / IZR sr) * IZR sr) with (IZR (nf + 1) * c n) in L by (field; lra). exact L.
Qed.
Lemma b_hi n : IZR (nf + 1) * c n < (IZR (b n) + 1) * IZR sr.
Proof.
  assert (S : 0 < IZR sr) by (apply IZR_lt; lia). unfold b, binR. fold (c n). pose proof (Zfloor_ub (IZR (nf + 1) * (c n / IZR sr))) as L.
  apply Rmult_lt_compat_r with (r := IZR sr) in L; [|lra]. replace (IZR (nf + 1) * (c n / IZR sr) * IZR sr) with (IZR (nf + 1) * c n) in L by (field; lra). exact L.
Qed.
Lemma freq_nf k : bin_freq sr nf k * IZR nf = IZR k * IZR sr.
Proof. unfold bin_freq. assert (2 <= IZR nf) by (apply IZR_le; lia). field. lra. Qed.

Lemma tri_below n k d e : (0 <= n <= nm + 1)%Z -> (k < b n)%Z -> c n < d -> d < e -> triangle (c n) d e (bin_freq sr nf k) = 0.
Proof.
  intros Hn Hk Hd He. pose proof (b_lo n) as L. pose proof (freq_nf k) as F. destruct (c_range n Hn) as [C0 C1].
  assert (N : 2 <= IZR nf) by (apply IZR_le; lia). assert (S : 0 < IZR sr) by (apply IZR_lt; lia).
  assert (K : IZR k + 1 <= IZR (b n)) by (rewrite <- plus_IZR; apply IZR_le; lia). rewrite plus_IZR in L.
  assert (FC : bin_freq sr nf k <= c n).
  { apply Rmult_le_reg_r with (IZR nf); [lra|]. rewrite F. apply Rle_trans with ((IZR (b n) - 1) * IZR sr); [apply Rmult_le_compat_r; lra|]. lra. }
  unfold triangle. apply Rmax_left. apply Rle_trans with ((bin_freq sr nf k - c n) / (d - c n)); [apply Rmin_l|].
  apply Rmult_le_reg_r with (d - c n); [lra|]. unfold Rdiv. rewrite Rmult_assoc, Rinv_l by lra. lra.
Qed.
Lemma tri_above n k d e : (0 <= n <= nm + 1)%Z -> (b n < k)%Z -> d < c n -> triangle e d (c n) (bin_freq sr nf k) = 0.
Proof.
  intros Hn Hk Hd. pose proof (b_hi n) as L. pose proof (freq_nf k) as F. destruct (c_range n Hn) as [C0 C1].
  assert (N : 2 <= IZR nf) by (apply IZR_le; lia). assert (S : 0 < IZR sr) by (apply IZR_lt; lia).
  assert (K : IZR (b n) + 1 <= IZR k) by (rewrite <- plus_IZR; apply IZR_le; lia). rewrite plus_IZR in L.
  assert (FC : c n <= bin_freq sr nf k).
  { apply Rmult_le_reg_r with (IZR nf); [lra|]. rewrite F. apply Rle_trans with ((IZR (b n) + 1) * IZR sr); [lra|]. apply Rmult_le_compat_r; lra. }
  unfold triangle. apply Rmax_left. apply Rle_trans with ((c n - bin_freq sr nf k) / (c n - d)); [apply Rmin_r|].
  apply Rmult_le_reg_r with (c n - d); [lra|]. unfold Rdiv. rewrite Rmult_assoc, Rinv_l by lra. lra.
Qed.
Lemma div_le_1 x y : 0 < y -> x <= y -> x / y <= 1.
Proof. intros. apply Rmult_le_reg_r with y; [lra|]. unfold Rdiv. rewrite Rmult_assoc, Rinv_l by lra. lra. Qed.
Lemma div_ge_1 x y : 0 < y -> y <= x -> 1 <= x / y.
Proof. intros. apply Rmult_le_reg_r with y; [lra|]. unfold Rdiv. rewrite Rmult_assoc, Rinv_l by lra. lra. Qed.
Lemma tri_lower x d e f : x < d -> d < e -> f <= d -> triangle x d e f = clamp01 ((f - x) / (d - x)).
Proof.
  intros. unfold triangle, clamp01. pose proof (div_le_1 (f - x) (d - x) ltac:(lra) ltac:(lra)). pose proof (div_ge_1 (e - f) (e - d) ltac:(lra) ltac:(lra)).
  rewrite (Rmin_left ((f - x) / (d - x)) 1) by lra. rewrite Rmin_left by lra. apply Rmax_comm.
Qed.
Lemma tri_upper x d e f : x < d -> d < e -> d <= f -> triangle x d e f = clamp01 ((e - f) / (e - d)).
Proof.
  intros. unfold triangle, clamp01. pose proof (div_ge_1 (f - x) (d - x) ltac:(lra) ltac:(lra)). pose proof (div_le_1 (e - f) (e - d) ltac:(lra) ltac:(lra)).
  rewrite (Rmin_left ((e - f) / (e - d)) 1) by lra. rewrite Rmin_right by lra. apply Rmax_comm.
Qed.
Lemma above_c n k : (0 <= n <= nm + 1)%Z -> (b n < k)%Z -> c n <= bin_freq sr nf k.
Proof.
  intros Hn Hk. pose proof (b_hi n) as L. pose proof (freq_nf k) as F. destruct (c_range n Hn) as [C0 C1].
  assert (N : 2 <= IZR nf) by (apply IZR_le; lia). assert (S : 0 < IZR sr) by (apply IZR_lt; lia).
  assert (K : IZR (b n) + 1 <= IZR k) by (rewrite <- plus_IZR; apply IZR_le; lia). rewrite plus_IZR in L.
  apply Rmult_le_reg_r with (IZR nf); [lra|]. rewrite F. apply Rle_trans with ((IZR (b n) + 1) * IZR sr); [lra|]. apply Rmult_le_compat_r; lra.
Qed.
(** A bin up to b n is at most c n, or it is b n itself and exceeds c n by at most a fraction 1/n_fft. *)
Lemma below_c n k : (0 <= n <= nm + 1)%Z -> (k < b n)%Z -> bin_freq sr nf k <= c n.
Proof.
  intros Hn Hk. pose proof (b_lo n) as L. pose proof (freq_nf k) as F. destruct (c_range n Hn) as [C0 C1].
  assert (N : 2 <= IZR nf) by (apply IZR_le; lia). assert (S : 0 < IZR sr) by (apply IZR_lt; lia).
  assert (K : IZR k + 1 <= IZR (b n)) by (rewrite <- plus_IZR; apply IZR_le; lia). rewrite plus_IZR in L.
  apply Rmult_le_reg_r with (IZR nf); [lra|]. rewrite F. apply Rle_trans with ((IZR (b n) - 1) * IZR sr); [apply Rmult_le_compat_r; lra|]. lra.
Qed.
Lemma at_c n : bin_freq sr nf (b n) <= c n * (1 + / IZR nf).
Proof.
  pose proof (b_lo n) as L. pose proof (freq_nf (b n)) as F. assert (N : 2 <= IZR nf) by (apply IZR_le; lia). rewrite plus_IZR in L.
  apply Rmult_le_reg_r with (IZR nf); [lra|]. rewrite F. replace (c n * (1 + / IZR nf) * IZR nf) with (c n * (IZR nf + 1)) by (field; lra). lra.
Qed.

(** The value of a filter: its response, except for the bin b m. *)
Definition val (spec : list R) (m : Z) : R :=
  sumr (b m - b (m - 1) + 1) (fun d => let k := (b (m - 1) + d)%Z in entry spec k * clamp01 ((bin_freq sr nf k - c (m - 1)) / (c m - c (m - 1)))) +
  sumr (b (m + 1) - b m) (fun d => let k := (b m + d + 1)%Z in entry spec k * clamp01 ((c (m + 1) - bin_freq sr nf k) / (c (m + 1) - c m))).
Lemma val_tri spec m : (1 <= m <= nm)%Z ->
  tri_response sr nf spec (c (m - 1)) (c m) (c (m + 1)) =
  val spec m + entry spec (b m) * (triangle (c (m - 1)) (c m) (c (m + 1)) (bin_freq sr nf (b m)) - clamp01 ((bin_freq sr nf (b m) - c (m - 1)) / (c m - c (m - 1)))).
Proof.
  intros Hm. unfold tri_response, val.
  pose proof (b_range (m - 1) ltac:(lia)). pose proof (b_range m ltac:(lia)). pose proof (b_range (m + 1) ltac:(lia)).
  pose proof (b_mono (m - 1) m ltac:(lia)). pose proof (b_mono m (m + 1) ltac:(lia)).
  pose proof (c_incr (m - 1) m ltac:(lia)). pose proof (c_incr m (m + 1) ltac:(lia)).
  set (f := fun k => entry spec k * triangle (c (m - 1)) (c m) (c (m + 1)) (bin_freq sr nf k)).
  replace (1 + nf / 2)%Z with (b (m - 1) + ((b m - b (m - 1)) + (1 + ((b (m + 1) - b m) + (nf / 2 - b (m + 1))))))%Z by lia.
  replace (b m - b (m - 1) + 1)%Z with ((b m - b (m - 1)) + 1)%Z by lia.
  rewrite sumr_split by lia. rewrite (sumr_split (b m - b (m - 1))) by lia. rewrite (sumr_split 1) by lia. rewrite (sumr_split (b (m + 1) - b m)) by lia.
  rewrite (sumr_split (b m - b (m - 1)) 1) by lia.
  rewrite (sumr_ext (b (m - 1)) _ (fun _ => 0)) at 1.
  2:{ intros k Hk. unfold f. rewrite tri_below by (lia || lra). ring. }
  rewrite sumr_zero.
  rewrite (sumr_ext (nf / 2 - b (m + 1)) _ (fun _ => 0)).
  2:{ intros k Hk. unfold f. rewrite tri_above by (lia || lra). ring. }
  rewrite sumr_zero.
  rewrite (sumr_ext (b m - b (m - 1)) _ (fun d => entry spec (b (m - 1) + d) * clamp01 ((bin_freq sr nf (b (m - 1) + d) - c (m - 1)) / (c m - c (m - 1))))) at 1.
  2:{ intros k Hk. unfold f. rewrite tri_lower; auto. apply below_c; lia. }
  rewrite (sumr_ext (b (m + 1) - b m) _ (fun d => entry spec (b m + d + 1) * clamp01 ((c (m + 1) - bin_freq sr nf (b m + d + 1)) / (c (m + 1) - c m)))) at 1.
  2:{ intros k Hk. unfold f. replace (b (m - 1) + (b m - b (m - 1) + (1 + k)))%Z with (b m + k + 1)%Z by lia. rewrite tri_upper; auto. apply above_c; lia. }
  rewrite !sumr_1. unfold f. rewrite !Z.add_0_r. replace (b (m - 1) + (b m - b (m - 1)))%Z with (b m) by lia. ring.
Qed.
(** The difference: none if the bin is not above the center; else at most that of a bin 1/n_fft above. *)
Lemma at_b_exact m : (1 <= m <= nm)%Z -> bin_freq sr nf (b m) <= c m ->
  triangle (c (m - 1)) (c m) (c (m + 1)) (bin_freq sr nf (b m)) = clamp01 ((bin_freq sr nf (b m) - c (m - 1)) / (c m - c (m - 1))).
Proof. intros Hm L. pose proof (c_incr (m - 1) m ltac:(lia)). pose proof (c_incr m (m + 1) ltac:(lia)). apply tri_lower; auto. Qed.
Lemma at_b_close m : (1 <= m <= nm)%Z ->
  0 <= clamp01 ((bin_freq sr nf (b m) - c (m - 1)) / (c m - c (m - 1))) - triangle (c (m - 1)) (c m) (c (m + 1)) (bin_freq sr nf (b m)) <= c m / (IZR nf * (c (m + 1) - c m)).
Proof.
  intros Hm. pose proof (c_incr (m - 1) m ltac:(lia)) as C1. pose proof (c_incr m (m + 1) ltac:(lia)) as C2. pose proof (c_range m ltac:(lia)) as CR.
  assert (N : 2 <= IZR nf) by (apply IZR_le; lia).
  assert (E0 : 0 <= c m / (IZR nf * (c (m + 1) - c m))).
  { apply Rmult_le_pos; [lra|]. left. apply Rinv_0_lt_compat. apply Rmult_lt_0_compat; lra. }
  destruct (Rle_lt_dec (bin_freq sr nf (b m)) (c m)) as [L|L].
  - rewrite at_b_exact by auto. lra.
  - rewrite tri_upper by lra. pose proof (at_c m) as AC. set (F := bin_freq sr nf (b m)) in *.
    pose proof (div_ge_1 (F - c (m - 1)) (c m - c (m - 1)) ltac:(lra) ltac:(lra)) as G1.
    pose proof (div_le_1 (c (m + 1) - F) (c (m + 1) - c m) ltac:(lra) ltac:(lra)) as G2.
    unfold clamp01. rewrite (Rmin_right _ 1) by lra. rewrite (Rmax_left 1 0) by lra. rewrite (Rmin_left _ 1) by lra.
    assert (G3 : 1 - (c (m + 1) - F) / (c (m + 1) - c m) <= c m / (IZR nf * (c (m + 1) - c m))).
    { replace (1 - (c (m + 1) - F) / (c (m + 1) - c m)) with ((F - c m) / (c (m + 1) - c m)) by (field; lra).
      replace (c m / (IZR nf * (c (m + 1) - c m))) with ((c m / IZR nf) / (c (m + 1) - c m)) by (field; lra).
      apply Rmult_le_compat_r; [left; apply Rinv_0_lt_compat; lra|]. unfold Rdiv. lra. }
    pose proof (Rmax_l ((c (m + 1) - F) / (c (m + 1) - c m)) 0). pose proof (Rmax_lub ((c (m + 1) - F) / (c (m + 1) - c m)) 0 1 G2 ltac:(lra)). lra.
Qed.
Lemma val_exact spec m : (1 <= m <= nm)%Z -> bin_freq sr nf (b m) <= c m -> val spec m = tri_response sr nf spec (c (m - 1)) (c m) (c (m + 1)).
Proof. intros Hm L. rewrite val_tri by auto. rewrite at_b_exact by auto. ring. Qed.
Lemma val_close spec m B : (1 <= m <= nm)%Z -> (forall k, (0 <= k <= nf / 2)%Z -> Rabs (entry spec k) <= B) ->
  Rabs (val spec m - tri_response sr nf spec (c (m - 1)) (c m) (c (m + 1))) <= B * (c m / (IZR nf * (c (m + 1) - c m))).
Proof.
  intros Hm HB. rewrite val_tri by auto. pose proof (at_b_close m Hm) as AB. set (D := clamp01 _ - _) in AB.
  match goal with |- Rabs ?x <= _ => replace x with (entry spec (b m) * D) by (unfold D; ring) end.
  rewrite Rabs_mult. rewrite (Rabs_right D) by lra. apply Rmult_le_compat; [apply Rabs_pos|lra|apply HB, b_range; lia|lra].
Qed.

Lemma melfilter_run spec : zlen spec = (1 + nf / 2)%Z ->
  melfilter_py real_arith real_trig real_mathf (map Fin spec) sr nf nm (Fin fmin) (Fin fmax) = Ret (map Fin (map (fun i => val spec (i + 1)) (zrange nm))).
Proof.
  intros HS. unfold melfilter_py. assert (Q : (0 <= nf / 2 <= nf)%Z) by (split; [apply Z.div_pos; lia|apply Z.div_le_upper_bound; lia]).
  pose proof Hnf as HF. change (2 ^ 31)%Z with 2147483648%Z in HF. rewrite Z.quot_div_nonneg by lia.
  rewrite chk_int32_ok by (unfold int32_ok; lia). cbn [bind]. pose proof (Res.zlen_map Fin spec) as ZM. change (num real_arith) with xreal. rewrite ZM, HS, Z.eqb_refl. cbn [negb].
  pose proof (melspec_fill real_arith real_trig real_mathf params (map Fin spec) (mk_vec 0 (1 + nf / 2)) (repeat (Fin 0) (Z.to_nat nm)) (mk_vec 0 nm) (fun i => Fin (val spec (i + 1)))) as MF.
  cbn [Audio.n_mels Audio.n_fft params real_mel v_length] in MF. fold params in MF.
  specialize (MF ltac:(lia) Hnf ltac:(lia) eq_refl).
  assert (LR : (nm <= zlen (repeat (Fin 0) (Z.to_nat nm)))%Z) by (unfold zlen; rewrite repeat_length; lia).
  specialize (MF LR).
  assert (MV : forall i, (0 <= i < nm)%Z -> mel_value real_arith real_trig real_mathf params (map Fin spec) (mk_vec 0 (1 + nf / 2)) (1 + nf / 2) (i + 1) = Ret (EmlOk, Fin (val spec (i + 1)))).
  { intros i Hi. rewrite <- HS at 1. apply value_run; lia. }
  specialize (MF MV). fold params. change (mk_mel real_arith nm (Fin fmin) (Fin fmax) nf sr) with params. change (nzero real_arith) with (Fin 0). rewrite MF. cbn [bind].
  rewrite skipn_all2 by (rewrite repeat_length; lia). rewrite app_nil_r, map_map. reflexivity.
Qed.
End Exact.
