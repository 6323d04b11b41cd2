(** Proofs about the Naive Bayes classifier. *)
From Coq Require Import ZArith List Bool Lia Reals Lra.
From Flocq Require Import Core BinarySingleNaN.
From Verif.Base Require Import Res CInt ListX Loops Float.
From Verif.Model Require Import Common FixedPoint Bayes.
From Verif.Spec Require Import BayesSpec.
From Verif.Proof Require Import FixedPoint.
Import ListNotations.
Open Scope Z_scope.
Open Scope res_scope.

Lemma q16_fits_ok {prec emax} {Hp : Prec_gt_0 prec} {Hm : Prec_lt_emax prec emax} (x : binary_float prec emax) :
  16 <= prec -> 48 <= emax -> q16_fits x -> EML_Q16_FROMFLOAT x = Ret (q16 x) /\ int32_ok (q16 x).
Proof.
  intros H1 H2 [F B].
  assert (I : int32_ok (q16 x)).
  { unfold q16, int32_ok. set (t := (B2R x * 65536)%R).
    assert (At : (Rabs t < 2147483648)%R).
    { unfold t. rewrite Rabs_mult, (Rabs_pos_eq 65536) by lra. lra. }
    assert (Bt : Z.abs (Ztrunc t) < 2147483648).
    { apply lt_IZR. rewrite abs_IZR. eapply Rle_lt_trans; [|exact At].
      rewrite <- abs_IZR, <- Ztrunc_abs. rewrite Ztrunc_floor by apply Rabs_pos. apply Zfloor_lb. }
    lia. }
  split; [|exact I]. apply q16_fromfloat_ok; auto. lra.
Qed.

Lemma deviation_ok value mean std r : 1 <= std -> nearest_away ((value - mean) * 65536) std r ->
  Z.abs r = deviation value mean std.
Proof.
  intros Hs N. unfold deviation.
  assert (R : nearest_away (Z.abs (value - mean) * 65536) std ((Z.abs (value - mean) * 65536 + std / 2) / std)) by (apply rdiv; lia).
  set (q := (Z.abs (value - mean) * 65536 + std / 2) / std) in *.
  assert (Q0 : 0 <= q) by (apply Z.div_pos; [|lia]; pose proof (Z.div_pos std 2); lia).
  assert (Z.abs r <= Z.abs q) by (apply (nearest_away_mono _ _ std r q ltac:(lia) N R); lia).
  assert (Z.abs q <= Z.abs r) by (apply (nearest_away_mono _ _ std q r ltac:(lia) R N); lia).
  lia.
Qed.
Lemma deviation_nonneg value mean std : 1 <= std -> 0 <= deviation value mean std.
Proof. intros. unfold deviation. apply Z.div_pos; [|lia]. pose proof (Z.div_pos std 2). lia. Qed.
Lemma deviation_mono value value' mean std : 1 <= std -> Z.abs (value - mean) <= Z.abs (value' - mean) ->
  deviation value mean std <= deviation value' mean std.
Proof. intros. unfold deviation. apply Z.div_le_mono; lia. Qed.

Lemma logpdf_std_ok d : 0 <= d < 11863296 ->
  eml_bayes_logpdf_std d = Ret (-185 * ((d / 256) * (d / 256) / 256) - 86884).
Proof.
  intros Hd. unfold eml_bayes_logpdf_std, eml_q16_mul. change (EML_Q16_FRACT_BITS / 2) with 8.
  rewrite !Z.shiftr_div_pow2 by lia. change (2 ^ 8) with 256.
  assert (Q : 0 <= d / 256 <= 46340).
  { split; [apply Z.div_pos; lia|]. assert (d / 256 < 46341) by (apply Z.div_lt_upper_bound; lia). lia. }
  set (q := d / 256) in *.
  assert (QQ : 0 <= q * q <= 2147395600) by nia.
  rewrite chk_int32_ok by (unfold int32_ok; lia). cbn [bind].
  rewrite !Z.shiftr_div_pow2 by lia. change (2 ^ 8) with 256.
  assert (R : 0 <= q * q / 256 <= 8388264).
  { split; [apply Z.div_pos; lia|]. assert (q * q / 256 < 8388265) by (apply Z.div_lt_upper_bound; lia). lia. }
  unfold logpdf_a, logpdf_b, logpdf_c. change (-47274 / 256) with (-185). change (0 / 256) with 0. set (s := q * q / 256) in *.
  rewrite chk_int32_ok by (unfold int32_ok; lia). cbn [bind].
  rewrite chk_int32_ok by (unfold int32_ok; lia). cbn [bind].
  rewrite chk_int32_ok by (unfold int32_ok; lia). cbn [bind].
  rewrite chk_int32_ok by (unfold int32_ok; lia). f_equal. lia.
Qed.

Theorem logpdf_ok value s : feature_fits value s ->
  eml_bayes_logpdf value (s_mean s) (s_std s) (s_stdlog2 s) = Ret (feature_score value s).
Proof.
  intros (S1 & S2 & D & V & F). unfold eml_bayes_logpdf.
  rewrite chk_int32_ok by exact D. cbn [bind].
  destruct (q16_div_ok (value - s_mean s) (s_std s) D S2 ltac:(lia)) as (r & N & E).
  rewrite E. cbn [bind].
  pose proof (deviation_ok _ _ _ _ S1 N) as A.
  rewrite to_int32_id by (unfold int32_ok; lia).
  assert (X : (if 0 <? r then Ret r else chk_int32 (- r)) = Ret (Z.abs r)).
  { destruct (Z.ltb_spec 0 r); [f_equal; lia|]. rewrite chk_int32_ok by (unfold int32_ok; lia). f_equal. lia. }
  rewrite X. cbn [bind]. rewrite A, logpdf_std_ok by (pose proof (deviation_nonneg value (s_mean s) (s_std s) S1); lia). cbn [bind].
  apply chk_int32_ok. exact F.
Qed.

(** A nearer value never scores lower. *)
Lemma feature_score_mono value value' s : 1 <= s_std s ->
  Z.abs (value - s_mean s) <= Z.abs (value' - s_mean s) -> feature_score value' s <= feature_score value s.
Proof.
  intros S H. unfold feature_score.
  pose proof (deviation_mono value value' (s_mean s) (s_std s) S H) as M.
  pose proof (deviation_nonneg value (s_mean s) (s_std s) S) as P.
  set (d := deviation value (s_mean s) (s_std s)) in *. set (d' := deviation value' (s_mean s) (s_std s)) in *.
  assert (0 <= d / 256 <= d' / 256) by (split; [apply Z.div_pos; lia|apply Z.div_le_mono; lia]).
  assert (d / 256 * (d / 256) / 256 <= d' / 256 * (d' / 256) / 256) by (apply Z.div_le_mono; [lia|]; apply Z.mul_le_mono_nonneg; lia).
  lia.
Qed.

Lemma class_score_ok model values class : model_ok model -> zlen values = bm_n_features model ->
  0 <= class < bm_n_classes model -> input_fits model values ->
  class_score model values (zlen values) class = Ret (class_total model values class).
Proof.
  intros (M1 & M2 & M3) HV HC HI. unfold class_score, class_total.
  destruct (foldM_range_inv (fun class_p value_idx =>
      let* m := chk_int32 (class * bm_n_features model) in
      let* summary_idx := chk_int32 (m + value_idx) in
      let* s := zget (bm_summaries model) summary_idx in
      let* v := zget values value_idx in
      let* val := EML_Q16_FROMFLOAT v in
      let* plog := eml_bayes_logpdf val (s_mean s) (s_std s) (s_stdlog2 s) in
      chk_int32 (class_p + plog)) (fun k acc => acc = sum_scores model values class (Z.to_nat k)) (zlen values) 0) as (r & E & H).
  - apply zlen_nonneg.
  - reflexivity.
  - intros i acc Hi ->. change (2 ^ 31) with 2147483648 in M3.
    set (nf := bm_n_features model) in *.
    assert (C1 : class * nf <= (bm_n_classes model - 1) * nf) by (apply Z.mul_le_mono_nonneg_r; lia).
    assert (C2 : 0 <= class * nf) by (apply Z.mul_nonneg_nonneg; lia).
    rewrite chk_int32_ok by (unfold int32_ok; lia). cbn [bind].
    rewrite chk_int32_ok by (unfold int32_ok; lia). cbn [bind].
    rewrite (zget_nth (bm_summaries model) (class * nf + i) (mk_summary 0 0 0)) by lia. cbn [bind].
    rewrite (zget_nth values i B754_nan) by lia. cbn [bind].
    assert (Hn : (Z.to_nat i < length values)%nat) by (unfold zlen in *; lia).
    destruct (HI class (Z.to_nat i) HC Hn) as (Q & F & HS).
    destruct (q16_fits_ok (nth (Z.to_nat i) values B754_nan) ltac:(lia) ltac:(lia) Q) as [Q1 Q2].
    rewrite Q1. cbn [bind]. unfold the_summary in F. rewrite Z2Nat.id in F by lia. fold nf in F.
    rewrite (logpdf_ok _ _ F). cbn [bind]. exists (sum_scores model values class (S (Z.to_nat i))).
    split; [|f_equal; lia]. rewrite <- chk_int32_ok by exact HS. f_equal. simpl sum_scores.
    unfold the_summary. rewrite Z2Nat.id by lia. reflexivity.
  - rewrite E, H. f_equal. f_equal. unfold zlen. lia.
Qed.

Theorem predict_ok junk model values : zlen junk >= 10 -> model_ok model -> 2 <= bm_n_classes model <= 10 ->
  zlen values = bm_n_features model -> input_fits model values ->
  exists c, eml_bayes_predict junk model values (zlen values) = Ret c /\ best_class model values c.
Proof.
  intros HJ HM HN HV HI. unfold eml_bayes_predict.
  destruct (Z.leb_spec 2 (bm_n_classes model)); [|lia]. cbn [negb].
  set (n := bm_n_classes model) in *. set (cp := firstn (Z.to_nat EML_MAX_CLASSES) junk).
  assert (CP : zlen cp = 10) by (unfold cp, zlen, EML_MAX_CLASSES in *; rewrite firstn_length; lia).
  destruct (foldM_range_inv (fun cp class_idx =>
        let* class_p := class_score model values (zlen values) class_idx in
        zset cp class_idx class_p)
     (fun k l => zlen l = 10 /\ forall i, 0 <= i < k -> zget l i = Ret (class_total model values i)) n cp) as (l & E & H1 & H2).
  - lia.
  - split; [auto|]. intros; lia.
  - intros k l Hk (A & B). rewrite class_score_ok by (auto; fold n; lia). cbn [bind].
    rewrite zset_ok by lia. eexists. split; [reflexivity|]. split; [rewrite zlen_list_set; auto|].
    intros i Hi. rewrite zget_list_set by lia. destruct (Z.eqb_spec k i) as [Q|Q]; [subst; auto|]; apply B; lia.
  - rewrite E. cbn [bind]. rewrite (H2 0) by lia. cbn [bind].
    set (t := class_total model values) in *.
    destruct (foldM_range_inv (fun '(idx, best) k =>
        let class_idx := k + 1 in
        let* p := zget l class_idx in
        if best <? p then Ret (class_idx, p) else Ret (idx, best))
      (fun k '(idx, best) => best = t idx /\ 0 <= idx <= k /\ (forall d, 0 <= d <= k -> t d <= t idx) /\ (forall d, 0 <= d < idx -> t d < t idx))
      (n - 1) (0, t 0)) as ([idx best] & E2 & B1 & B2 & B3 & B4).
    + lia.
    + split; [auto|]. split; [lia|]. split; intros; [assert (d = 0) by lia; subst; lia|lia].
    + intros k [idx best] Hk (-> & B2 & B3 & B4). cbv zeta. rewrite (H2 (k + 1)) by lia. cbn [bind].
      destruct (Z.ltb_spec (t idx) (t (k + 1))).
      * eexists. split; [reflexivity|]. split; [auto|]. split; [lia|]. split; intros d Hd.
        -- destruct (Z.eq_dec d (k + 1)); [subst; lia|]. specialize (B3 d ltac:(lia)). lia.
        -- specialize (B3 d ltac:(lia)). lia.
      * eexists. split; [reflexivity|]. split; [auto|]. split; [lia|]. split; intros d Hd.
        -- destruct (Z.eq_dec d (k + 1)); [subst; lia|]. apply B3; lia.
        -- apply B4; lia.
    + cbv zeta in E2. rewrite E2. cbn [bind]. exists idx. split; [reflexivity|]. unfold best_class. fold t n.
      split; [lia|]. split; intros; [apply B3; lia|apply B4; lia].
Qed.
(** Fewer than two classes. *)
Lemma predict_few junk model values n : bm_n_classes model < 2 -> eml_bayes_predict junk model values n = Ret (-3).
Proof. intros. unfold eml_bayes_predict. destruct (Z.leb_spec 2 (bm_n_classes model)); [lia|]. reflexivity. Qed.

(** ** The generated table *)
Lemma generate_ok (m : list (list (f64 * f64 * f64))) nf :
  Forall (Forall (fun '(a, b, c) => q16_fits a /\ q16_fits b /\ q16_fits c)) m ->
  generate_bayes m nf = Ret (mk_bayes (zlen m) nf
    (concat (map (map (fun '(a, b, c) => mk_summary (q16 a) (q16 b) (q16 c))) m))).
Proof.
  intros H. unfold generate_bayes, generate_summaries.
  assert (E : mapM (fun '(mean, std, stdlog2) =>
      let* m := EML_Q16_FROMFLOAT mean in
      let* s := EML_Q16_FROMFLOAT std in
      let* l := EML_Q16_FROMFLOAT stdlog2 in
      Ret (mk_summary m s l)) (concat m) = Ret (map (fun '(a, b, c) => mk_summary (q16 a) (q16 b) (q16 c)) (concat m))).
  { assert (HF : Forall (fun '(a, b, c) => q16_fits a /\ q16_fits b /\ q16_fits c) (concat m)).
    { apply Forall_concat. exact H. }
    induction HF as [|[[a b] c] l (A & B & C) HF IH]; [reflexivity|]. simpl mapM.
    destruct (q16_fits_ok a ltac:(lia) ltac:(lia) A) as [-> _].
    destruct (q16_fits_ok b ltac:(lia) ltac:(lia) B) as [-> _].
    destruct (q16_fits_ok c ltac:(lia) ltac:(lia) C) as [-> _]. cbn [bind]. rewrite IH. reflexivity. }
  rewrite E. cbn [bind]. rewrite concat_map. reflexivity.
Qed.

Lemma generated_table (m : list (list (f64 * f64 * f64))) nf :
  Forall (Forall (fun '(mean, std, stdlog2) => q16_fits mean /\ q16_fits std /\ q16_fits stdlog2)) m ->
  Forall (fun row => zlen row = nf) m ->
  exists t, generate_bayes m nf = Ret t /\ bm_n_classes t = zlen m /\ bm_n_features t = nf /\
    zlen (bm_summaries t) = zlen m * nf /\
    forall c i row mean std stdlog2, zget m c = Ret row -> zget row i = Ret (mean, std, stdlog2) ->
      zget (bm_summaries t) (c * nf + i) = Ret (mk_summary (q16 mean) (q16 std) (q16 stdlog2)).
Proof.
  intros H HL. rewrite generate_ok by exact H. eexists. split; [reflexivity|]. simpl.
  split; [reflexivity|]. split; [reflexivity|].
  set (g := fun '(a, b, c) => mk_summary (q16 a) (q16 b) (q16 c)).
  split.
  - induction HL as [|row m Hr HL IH]; [reflexivity|]. simpl. inversion H; subst. rewrite zlen_app, IH by auto.
    unfold zlen in *. rewrite map_length. simpl length. lia.
  - intros c i row mean std sl Hc Hi. revert c Hc. induction HL as [|r m Hr HL IH]; intros c Hc.
    { apply zget_bound in Hc. unfold zlen in Hc; simpl in Hc. lia. }
    inversion H; subst. pose proof (zget_bound _ _ _ Hc) as Bc. pose proof (zget_bound _ _ _ Hi) as Bi.
    simpl concat. apply zget_Ret in Hc as [_ Hc]. destruct (Z.eq_dec c 0) as [->|Nc].
    + simpl in Hc. inversion Hc; subst. rewrite Z.mul_0_l, Z.add_0_l. apply zget_app1. rewrite zget_map, Hi. reflexivity.
    + assert (Hc' : zget m (c - 1) = Ret row).
      { apply zget_Ret. split; [lia|]. replace (Z.to_nat c) with (S (Z.to_nat (c - 1))) in Hc by lia. exact Hc. }
      specialize (IH ltac:(auto) (c - 1) Hc').
      replace (c * zlen r + i) with (zlen (map g r) + ((c - 1) * zlen r + i)) by (unfold zlen; rewrite map_length; lia).
      apply zget_app2. exact IH.
Qed.
