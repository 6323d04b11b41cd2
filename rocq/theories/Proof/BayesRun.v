(** Converted GaussianNB, from the fitted numbers to the returned classes. *)
From Coq Require Import String ZArith List Bool Lia Reals Lra.
From Flocq Require Import Core BinarySingleNaN.
From Flocq.Prop Require Import Relative.
From Verif.Base Require Import Res CInt ListX Loops Float FloatOrder Kernels RealSum.
From Verif.Model Require Import Common Text TreesConvert TreesC FixedPoint Bayes Cgen Harness TreesRun DistanceRun BayesRun.
From Verif.Spec Require Import BayesSpec HarnessSpec RunSpec NetRunSpec StrSpec BayesRunSpec.
From Verif.Proof Require Import Text FixedPoint Bayes Log2 NormalConst NetClose Harness RunRows TreesFloatRun NetRun Str BayesErr.
Import Verif.Spec.HarnessSpec ListNotations.
Open Scope Z_scope.
Open Scope res_scope.

(** ** Fixed-point constants *)
Lemma q16_real {prec emax} (x : binary_float prec emax) : (Rabs (IZR (q16 x) / 65536 - B2R x) <= / 65536)%R.
Proof.
  unfold q16. set (t := (B2R x * 65536)%R). assert (E : (B2R x = t / 65536)%R) by (unfold t; field). rewrite E.
  assert (B : (Rabs (IZR (Ztrunc t) - t) <= 1)%R).
  { destruct (Rle_lt_dec 0 t) as [H|H].
    - rewrite Ztrunc_floor by exact H. pose proof (Zfloor_lb t). pose proof (Zfloor_ub t). apply Rabs_le. lra.
    - rewrite Ztrunc_ceil by lra. pose proof (Zceil_ub t). pose proof (Zceil_lb t). apply Rabs_le. lra. }
  clearbody t. apply Rabs_le_inv in B. apply Rabs_le. lra.
Qed.
Lemma c_tofixed_ok float_str (v : f64) : str_reads_back float_str -> q16_fits v -> c_tofixed float_str v = Ret (q16 v).
Proof.
  intros SR Q. destruct (double_constant_ok float_str v SR (proj1 Q)) as (y & E & F & V). unfold c_tofixed. rewrite E. cbn [bind].
  assert (QY : q16_fits y) by (split; [exact F|]; rewrite V; apply Q).
  destruct (q16_fits_ok y ltac:(lia) ltac:(lia) QY) as [-> _]. unfold q16. now rewrite V.
Qed.

(** ** Square root and logarithm *)
Lemma sqrt_bpow k : sqrt (bpow radix2 (2 * k)) = bpow radix2 k.
Proof.
  replace (2 * k) with (k + k) by ring. rewrite bpow_plus. apply sqrt_square. apply bpow_ge_0.
Qed.
Lemma np_sqrt_ok (v : f64) : is_finite v = true -> (bpow radix2 (-28) <= B2R v <= bpow radix2 28)%R ->
  exists s : f64, np_sqrt v = Ret s /\ is_finite s = true /\ (bpow radix2 (-14) <= B2R s <= bpow radix2 14)%R /\
    (Rabs (B2R s - sqrt (B2R v)) <= / 137438953472)%R.
Proof.
  intros F [L U]. pose proof (bpow_gt_0 radix2 (-28)) as P.
  pose proof (Bsqrt_correct 53 1024 _ _ mode_NE v) as (E & FE & _). cbn [round_mode] in E.
  assert (FS : is_finite (fsqrt v : f64) = true).
  { unfold fsqrt. rewrite FE. destruct v as [[|]|[|]| |[|] m e H]; try discriminate F; try reflexivity. exfalso.
    apply (Rlt_irrefl 0). eapply Rlt_trans; [exact P|]. eapply Rle_lt_trans; [exact L|]. apply F2R_lt_0. cbn. lia. }
  assert (SB : (bpow radix2 (-14) <= sqrt (B2R v) <= bpow radix2 14)%R).
  { rewrite <- (sqrt_bpow (-14)), <- (sqrt_bpow 14). split; apply sqrt_le_1_alt; [exact L|exact U]. }
  exists (fsqrt v). split; [|split; [exact FS|]].
  - unfold np_sqrt. cbv zeta. destruct (fsqrt v); try discriminate FS; reflexivity.
  - unfold fsqrt. rewrite E. set (r := sqrt (B2R v)) in *. split; [split|].
    + apply round_ge_generic; [apply fexp_correct; reflexivity|apply valid_rnd_N| |apply SB]. apply generic_format_bpow. vm_compute. discriminate.
    + apply round_le_generic; [apply fexp_correct; reflexivity|apply valid_rnd_N| |apply SB]. apply generic_format_bpow. vm_compute. discriminate.
    + pose proof (@error_N_FLT radix2 (-1074) 53 ltac:(reflexivity) (fun x => negb (Z.even x)) r) as (eps & eta & E1 & E2 & E3 & Q).
      change (round radix2 (FLT_exp (-1074) 53) (Znearest (fun x => negb (Z.even x))) r) with (round radix2 (SpecFloat.fexp 53 1024) ZnearestE r) in Q. rewrite Q.
      change (Rabs eps <= / 2 * / 4503599627370496)%R in E1.
      assert (HE : (Rabs eta <= bpow radix2 (-60))%R).
      { eapply Rle_trans; [exact E2|]. apply Rle_trans with (bpow radix2 (-1074)); [pose proof (bpow_gt_0 radix2 (-1074)); lra|apply bpow_le; lia]. }
      change (bpow radix2 (-60)) with (/ 1152921504606846976)%R in HE. change (bpow radix2 14) with 16384%R in SB. change (bpow radix2 (-14)) with (/ 16384)%R in SB.
      replace (r * (1 + eps) + eta - r)%R with (r * eps + eta)%R by ring. eapply Rle_trans; [apply Rabs_triang|]. rewrite Rabs_mult, (Rabs_pos_eq r) by lra.
      assert (r * Rabs eps <= 16384 * (/ 2 * / 4503599627370496))%R by (apply Rmult_le_compat; try apply Rabs_pos; lra). lra.
Qed.
Lemma np_log2_ok log2_fn (s : f64) : is_finite s = true -> (0 < B2R s)%R -> np_log2 log2_fn s = Ret (log2_fn s).
Proof.
  intros F P. destruct s as [sg|sg| |[|] m e H]; try discriminate F; try reflexivity.
  - cbn in P. lra.
  - exfalso. apply (Rlt_irrefl 0). eapply Rlt_trans; [exact P|]. apply F2R_lt_0. cbn. lia.
Qed.
(** The logarithm of nearly equal numbers. *)
Lemma log2_near (a b : R) : (bpow radix2 (-14) <= a)%R -> (bpow radix2 (-14) <= b)%R -> (Rabs (a - b) <= / 137438953472)%R ->
  (Rabs (log2R a - log2R b) <= / 4194304)%R.
Proof.
  change (bpow radix2 (-14)) with (/ 16384)%R. intros HA HB D.
  assert (W : forall x y, (/ 16384 <= x)%R -> (x <= y)%R -> (y - x <= / 137438953472)%R -> (log2R y - log2R x <= / 4194304)%R).
  { intros x y Hx Hxy Hd. pose proof ln2_bounds as [LB _]. unfold log2R.
    assert (LL : (ln y - ln x <= (y - x) / x)%R).
    { replace (ln y - ln x)%R with (ln (y / x)).
      - replace ((y - x) / x)%R with (y / x - 1)%R by (field; lra). set (u := (y / x)%R).
        assert (U0 : (0 < u)%R) by (apply Rmult_lt_0_compat; [lra|apply Rinv_0_lt_compat; lra]).
        apply Rnot_lt_le. intros H. apply exp_increasing in H. rewrite exp_ln in H by exact U0. pose proof (exp_ineq1_le (u - 1)). lra.
      - unfold Rdiv. rewrite ln_mult by (try apply Rinv_0_lt_compat; lra). rewrite ln_Rinv by lra. ring. }
    assert (Q : ((y - x) / x <= / 8388608)%R).
    { apply Rmult_le_reg_r with x; [lra|]. replace ((y - x) / x * x)%R with (y - x)%R by (field; lra). lra. }
    replace (ln y / ln 2 - ln x / ln 2)%R with ((ln y - ln x) / ln 2)%R by (field; lra).
    apply Rmult_le_reg_r with (ln 2); [lra|]. replace ((ln y - ln x) / ln 2 * ln 2)%R with (ln y - ln x)%R by (field; lra). lra. }
  apply Rabs_le_inv in D. apply Rabs_le. destruct (Rle_lt_dec a b) as [H|H].
  - pose proof (W a b HA H ltac:(lra)). pose proof (log2_le a b ltac:(lra) H). lra.
  - pose proof (W b a HB ltac:(lra) ltac:(lra)). pose proof (log2_le b a ltac:(lra) ltac:(lra)). lra.
Qed.
Lemma log2_range (a : R) : (bpow radix2 (-14) <= a <= bpow radix2 14)%R -> (Rabs (log2R a) <= 14)%R.
Proof.
  intros [L U]. assert (P : forall n, log2R (2 ^ n) = INR n).
  { induction n as [|n IH]; [apply log2_1|]. cbn [pow]. rewrite log2_mult by (try apply pow_lt; lra). rewrite log2_2, IH, S_INR. ring. }
  assert (E14 : log2R 16384 = 14%R). { replace 16384%R with (2 ^ 14)%R by (cbn; lra). rewrite P. cbn. lra. }
  assert (EM : log2R (/ 16384) = (-14)%R).
  { unfold log2R in *. rewrite ln_Rinv by lra. lra. }
  change (bpow radix2 (-14)) with (/ 16384)%R in L. change (bpow radix2 14) with 16384%R in U.
  pose proof (log2_le (/ 16384) a ltac:(lra) L). pose proof (log2_le a 16384 ltac:(lra) U). apply Rabs_le. lra.
Qed.

(** ** One feature *)
Section feature.
Context (x m s : R) (w : f32) (mean std lg : f64).
Hypothesis HX : (Rabs x <= 16000)%R.
Hypothesis HM : (Rabs m <= 16000)%R.
Hypothesis HS : (bpow radix2 (-14) <= s <= bpow radix2 14)%R.
Hypothesis NX : (Rabs (B2R w - x) <= print8 x)%R.
Hypothesis NM : B2R mean = m.
Hypothesis NS : (Rabs (B2R std - s) <= / 137438953472)%R.
Hypothesis NL : (Rabs (B2R lg - log2R s) <= 2 / 1048576)%R.
Hypothesis Z180 : (away_std x m s + away_err x m s <= 180)%R.
Definition the_summ : summary := mk_summary (q16 mean) (q16 std) (q16 lg).
Let V : R := (IZR (q16 w) / 65536)%R.
Let M : R := (IZR (q16 mean) / 65536)%R.
Let SS : R := (IZR (q16 std) / 65536)%R.
Let LL : R := (IZR (q16 lg) / 65536)%R.

Lemma print8_small : (0 <= print8 x <= / 1000)%R.
Proof using HX. unfold print8. pose proof (Rabs_pos x). lra. Qed.
Lemma s_num : (/ 16384 <= s <= 16384)%R. Proof using HS. exact HS. Qed.
Lemma V_near : (Rabs (V - x) <= / 65536 + print8 x)%R.
Proof using NX.
  replace (V - x)%R with ((V - B2R w) + (B2R w - x))%R by ring. eapply Rle_trans; [apply Rabs_triang|]. apply Rplus_le_compat; [apply q16_real|exact NX].
Qed.
Lemma M_near : (Rabs (M - m) <= / 65536)%R. Proof using NM. rewrite <- NM. apply q16_real. Qed.
Lemma S_near : (Rabs (SS - s) <= 2 / 65536)%R.
Proof using NS.
  replace (SS - s)%R with ((SS - B2R std) + (B2R std - s))%R by ring. eapply Rle_trans; [apply Rabs_triang|].
  pose proof (q16_real std) as Q. fold SS in Q. lra.
Qed.
Lemma L_near : (Rabs (LL - log2R s) <= 2 / 65536)%R.
Proof using NL.
  replace (LL - log2R s)%R with ((LL - B2R lg) + (B2R lg - log2R s))%R by ring. eapply Rle_trans; [apply Rabs_triang|].
  pose proof (q16_real lg) as Q. fold LL in Q. lra.
Qed.
Definition z' : R := (Rabs (IZR (q16 w) - IZR (q16 mean)) / IZR (q16 std))%R.
Lemma SS_low : (s - 2 / 65536 <= SS /\ / 32768 <= SS)%R.
Proof using NS HS. pose proof S_near as N. pose proof s_num as SN. apply Rabs_le_inv in N. lra. Qed.
Lemma z'_eq : z' = (Rabs (V - M) / SS)%R.
Proof using NS HS.
  pose proof SS_low as [_ L]. unfold z', V, M in *. replace (IZR (q16 w) / 65536 - IZR (q16 mean) / 65536)%R with ((IZR (q16 w) - IZR (q16 mean)) * / 65536)%R by field.
  rewrite Rabs_mult, (Rabs_pos_eq (/ 65536)) by lra. unfold SS in *. field. lra.
Qed.
Lemma away_nonneg : (0 <= away_std x m s /\ 0 <= away_err x m s)%R.
Proof using HS HX.
  pose proof s_num as SN. pose proof print8_small as P8.
  assert (A : (0 <= away_std x m s)%R) by (apply Rmult_le_pos; [apply Rabs_pos|]; left; apply Rinv_0_lt_compat; lra).
  split; [exact A|]. unfold away_err. apply Rmult_le_pos; [|left; apply Rinv_0_lt_compat; lra]. lra.
Qed.
Lemma z_near : (Rabs (z' - away_std x m s) <= away_err x m s)%R.
Proof using NX NM NS HS HX.
  pose proof SS_low as [L1 L2]. pose proof s_num as SN. pose proof away_nonneg as [A0 _]. pose proof print8_small as P8.
  rewrite z'_eq. unfold away_err. set (z := away_std x m s) in *.
  assert (EZ : (Rabs (x - m) = z * s)%R) by (unfold z, away_std; field; lra).
  pose proof V_near as NV. pose proof M_near as NMm. pose proof S_near as NSs.
  assert (D : (Rabs (Rabs (V - M) - Rabs (x - m)) <= 2 / 65536 + print8 x)%R).
  { eapply Rle_trans; [apply Rabs_triang_inv2|]. replace (V - M - (x - m))%R with ((V - x) + - (M - m))%R by ring. eapply Rle_trans; [apply Rabs_triang|]. rewrite Rabs_Ropp. lra. }
  replace (Rabs (V - M) / SS - z)%R with ((Rabs (V - M) - Rabs (x - m) + z * (s - SS)) * / SS)%R by (rewrite EZ; field; lra).
  rewrite Rabs_mult, (Rabs_pos_eq (/ SS)) by (left; apply Rinv_0_lt_compat; lra).
  apply Rmult_le_compat; [apply Rabs_pos|left; apply Rinv_0_lt_compat; lra| |apply Rinv_le; lra].
  eapply Rle_trans; [apply Rabs_triang|]. apply Rplus_le_compat; [exact D|]. rewrite Rabs_mult, (Rabs_pos_eq z) by exact A0.
  rewrite (Rmult_comm (2 / 65536)). apply Rmult_le_compat_l; [exact A0|]. rewrite Rabs_minus_sym. exact NSs.
Qed.
Lemma z'_nonneg : (0 <= z')%R.
Proof using NS HS. pose proof SS_low as [_ L]. rewrite z'_eq. apply Rmult_le_pos; [apply Rabs_pos|left; apply Rinv_0_lt_compat; lra]. Qed.
Lemma std_pos : 1 <= q16 std.
Proof using NS HS.
  pose proof SS_low as [_ L]. assert (0 < q16 std); [|lia]. apply lt_IZR. unfold SS in L. lra.
Qed.
Lemma score_near : (Rabs (IZR (feature_score (q16 w) the_summ) / 65536 - log_density x m s) <= score_err x m s)%R.
Proof using NX NM NS NL HS HX.
  pose proof (score_real (q16 w) the_summ std_pos) as [S1 _]. cbv zeta in S1. cbn [s_mean s_std s_stdlog2 the_summ] in S1. fold z' LL in S1.
  pose proof s_num as SN. rewrite log_density_eq by lra.
  replace (((x - m) / s) ^ 2)%R with (away_std x m s ^ 2)%R.
  2: { unfold away_std. rewrite <- (Rsqr_pow2 (Rabs _ / s)). unfold Rdiv. rewrite Rsqr_mult, <- Rsqr_abs, <- Rsqr_mult, Rsqr_pow2. reflexivity. }
  unfold score_err. pose proof away_nonneg as [A0 E0]. pose proof z_near as ZN. pose proof z'_nonneg as Z0. pose proof L_near as LN. pose proof kk_bounds as KB.
  set (z := away_std x m s) in *. set (e := away_err x m s) in *. set (T := (IZR (feature_score (q16 w) the_summ) / 65536)%R) in *.
  apply Rabs_le_inv in ZN.
  replace (T - (- kk * z ^ 2 - cc - log2R s))%R with ((T - (- kk * z' ^ 2 - cc - LL)) + (- (kk * (z' ^ 2 - z ^ 2)) + - (LL - log2R s)))%R by ring.
  eapply Rle_trans; [apply Rabs_triang|]. eapply Rle_trans; [apply Rplus_le_compat_l; apply Rabs_triang|]. rewrite !Rabs_Ropp.
  assert (Q1 : (Rabs (z' ^ 2 - z ^ 2) <= 2 * z * e + e ^ 2)%R) by (apply Rabs_le; split; nra).
  assert (Q2 : (Rabs (kk * (z' ^ 2 - z ^ 2)) <= 3 / 4 * (2 * z * e + e ^ 2))%R).
  { rewrite Rabs_mult, (Rabs_pos_eq kk) by lra. apply Rmult_le_compat; try apply Rabs_pos; lra. }
  assert (Q3 : ((z' + 2) ^ 2 / 700 <= (z + e + 2) ^ 2 / 700)%R) by nra.
  lra.
Qed.
Lemma score_size : (Rabs (IZR (feature_score (q16 w) the_summ) / 65536) <= 3 / 4 * (away_std x m s + away_err x m s) ^ 2 + 20)%R.
Proof using NX NM NS NL HS HX.
  pose proof (score_real (q16 w) the_summ std_pos) as [_ S2]. cbv zeta in S2. cbn [s_mean s_std s_stdlog2 the_summ] in S2. fold z' LL in S2.
  pose proof z_near as ZN. pose proof z'_nonneg as Z0. pose proof L_near as LN. pose proof (log2_range s HS) as LR. pose proof away_nonneg as [A0 E0].
  apply Rabs_le_inv in ZN. set (z := away_std x m s) in *. set (e := away_err x m s) in *.
  assert (LB : (Rabs LL <= 15)%R).
  { replace LL with ((LL - log2R s) + log2R s)%R by ring. eapply Rle_trans; [apply Rabs_triang|]. lra. }
  assert (Q : (z' ^ 2 <= (z + e) ^ 2)%R) by nra. lra.
Qed.
Lemma feature_good : feature_fits (q16 w) the_summ /\ q16_fits w \/ ~ is_finite w = true.
Proof using All.
  destruct (is_finite w) eqn:FW; [left|right; discriminate].
  pose proof S_near as NSs. pose proof s_num as SN. pose proof V_near as NV. pose proof M_near as NMm. pose proof print8_small as P8.
  pose proof SS_low as [_ L]. pose proof score_size as SC. pose proof z_near as ZN. pose proof z'_nonneg as Z0. pose proof away_nonneg as [A0 E0].
  split.
  - unfold feature_fits. cbn [s_mean s_std s_stdlog2 the_summ]. split; [apply std_pos|].
    assert (IB : forall k, (Rabs (IZR k / 65536) <= 32700)%R -> int32_ok k).
    { intros k Hk. unfold int32_ok. apply Rabs_le_inv in Hk. split; apply le_IZR; lra. }
    split; [apply IB; fold SS; apply Rabs_le_inv in NSs; apply Rabs_le; lra|].
    split.
    { apply IB. rewrite minus_IZR. replace ((IZR (q16 w) - IZR (q16 mean)) / 65536)%R with (V - M)%R by (unfold V, M; field).
      apply Rabs_le_inv in NV. apply Rabs_le_inv in NMm. apply Rabs_le_inv in HX. apply Rabs_le_inv in HM. apply Rabs_le. lra. }
    split.
    { pose proof (deviation_real (q16 w) (q16 mean) (q16 std) std_pos) as D. fold z' in D. apply Rabs_le_inv in D. apply Rabs_le_inv in ZN.
      apply lt_IZR. lra. }
    apply IB. eapply Rle_trans; [exact SC|]. set (t := (away_std x m s + away_err x m s)%R) in *. assert (0 <= t)%R by (unfold t; lra). nra.
  - split; [exact FW|]. apply Rabs_le_inv in NX. apply Rabs_le_inv in HX. apply Rabs_def1; lra.
Qed.
End feature.

(** ** The table *)
Lemma mapM_zrange {Y} (g : Z -> res Y) (P : Z -> Y -> Prop) n : 0 <= n -> (forall i, 0 <= i < n -> exists y, g i = Ret y /\ P i y) ->
  exists ys, mapM g (zrange n) = Ret ys /\ zlen ys = n /\ forall i, 0 <= i < n -> exists y, zget ys i = Ret y /\ P i y.
Proof.
  revert n. refine (sumr_ind (fun n => (forall i, 0 <= i < n -> exists y, g i = Ret y /\ P i y) ->
    exists ys, mapM g (zrange n) = Ret ys /\ zlen ys = n /\ forall i, 0 <= i < n -> exists y, zget ys i = Ret y /\ P i y) _ _).
  - intros _. exists []. rewrite zrange_0 by lia. split; [reflexivity|]. split; [reflexivity|]. intros; lia.
  - intros n Hn IH H. destruct IH as (ys & E & L & Q); [intros i Hi; apply H; lia|]. destruct (H n ltac:(lia)) as (y & Ey & Py).
    exists (ys ++ [y]). rewrite zrange_S by lia. split; [|split].
    + assert (A : forall l1 l2 r1 r2, mapM g l1 = Ret r1 -> mapM g l2 = Ret r2 -> mapM g (l1 ++ l2) = Ret (r1 ++ r2)).
      { clear. induction l1 as [|a l1 IH]; intros l2 r1 r2 E1 E2; cbn [mapM app] in *; [injection E1 as <-; exact E2|].
        apply bind_Ret in E1 as (b & Eb & E1). apply bind_Ret in E1 as (bs & Ebs & E1). injection E1 as <-. rewrite Eb. cbn [bind].
        rewrite (IH _ _ _ Ebs E2). reflexivity. }
      apply A; [exact E|]. cbn [mapM]. rewrite Ey. reflexivity.
    + rewrite zlen_app, zlen_cons, L. unfold zlen. cbn. lia.
    + intros i Hi. destruct (Z.eq_dec i n) as [->|NE].
      * exists y. split; [|exact Py]. rewrite <- L, <- (Z.add_0_r (zlen ys)). apply zget_app2. reflexivity.
      * destruct (Q i ltac:(lia)) as (y' & E' & P'). exists y'. split; [|exact P']. apply zget_app1. exact E'.
Qed.
Lemma matrix_get nc nf m c i : matrix_of nc nf m -> 0 <= c < nc -> 0 <= i < nf ->
  exists r v, pyget m c = Ret r /\ pyget r i = Ret v /\ In r m /\ In v r /\ B2R v = at2 m c i.
Proof.
  intros [L F] Hc Hi. destruct (zget_ok m c ltac:(lia)) as [r Hr]. rewrite Forall_forall in F. pose proof (zget_In _ _ _ Hr) as Ir.
  specialize (F r Ir). destruct (zget_ok r i ltac:(lia)) as [v Hv]. exists r, v.
  split; [exact (pyget_zget _ _ _ Hr)|]. split; [exact (pyget_zget _ _ _ Hv)|]. split; [exact Ir|]. split; [eapply zget_In; exact Hv|].
  unfold at2. rewrite (zget_nth m c [] ltac:(lia)) in Hr. injection Hr as ->. rewrite (zget_nth r i fzero ltac:(lia)) in Hv. injection Hv as ->. reflexivity.
Qed.

Section run.
Context (float_str : f64 -> text) (log2_fn : f64 -> f64) (nc nf : Z) (f : fitted_nb).
Hypothesis SR : str_reads_back float_str.
Hypothesis LG : log2_accurate log2_fn.
Hypothesis G : good_nb nc nf f.

Definition entry_ok (c i : Z) (en : f64 * f64 * f64) : Prop :=
  let '(mean, std, lg) := en in
  q16_fits mean /\ q16_fits std /\ q16_fits lg /\
  (Rabs (mean_of f c i) <= 16000)%R /\ (bpow radix2 (-14) <= std_of f c i <= bpow radix2 14)%R /\
  B2R mean = mean_of f c i /\ (Rabs (B2R std - std_of f c i) <= / 137438953472)%R /\ (Rabs (B2R lg - log2R (std_of f c i)) <= 2 / 1048576)%R.

Lemma table_ok : exists tab, nb_table log2_fn f = Ret tab /\ zlen tab = nc /\
  forall c, 0 <= c < nc -> exists r, zget tab c = Ret r /\ zlen r = nf /\ forall i, 0 <= i < nf -> exists en, zget r i = Ret en /\ entry_ok c i en.
Proof using G LG.
  destruct G as (Hc & Hf & MT & MV & FT & FV). unfold nb_table.
  destruct (matrix_get nc nf (nb_theta f) 0 0 MT ltac:(lia) ltac:(lia)) as (r0 & _ & E0 & _ & I0 & _). rewrite E0. cbn [bind].
  assert (L0 : zlen r0 = nf) by (destruct MT as [_ M]; rewrite Forall_forall in M; apply M; exact I0).
  assert (LT : zlen (nb_theta f) = nc) by apply MT. rewrite L0, LT.
  apply (mapM_zrange _ (fun c r => zlen r = nf /\ forall i, 0 <= i < nf -> exists en, zget r i = Ret en /\ entry_ok c i en) nc); [lia|].
  intros c Hcc. match goal with |- exists y, mapM ?g _ = Ret y /\ _ => destruct (mapM_zrange g (entry_ok c) nf) as (ys & E & L & Q) end; [lia| |].
  - intros i Hi. destruct (matrix_get nc nf (nb_theta f) c i MT Hcc Hi) as (tr & mean & Et & Em & It & Im & Bm).
    destruct (matrix_get nc nf (nb_var f) c i MV Hcc Hi) as (vr & va & Ev & Ea & Iv & Ia & Ba).
    rewrite Et. cbn [bind]. rewrite Em. cbn [bind]. rewrite Ev. cbn [bind]. rewrite Ea. cbn [bind].
    rewrite Forall_forall in FT, FV. pose proof (FT tr It) as FT1. pose proof (FV vr Iv) as FV1. rewrite Forall_forall in FT1, FV1.
    destruct (FT1 mean Im) as [Fm Sm]. destruct (FV1 va Ia) as [Fa Sa].
    destruct (np_sqrt_ok va Fa Sa) as (std & Es & Fs & Rs & Ns). rewrite Es. cbn [bind].
    assert (P14 : (0 < bpow radix2 (-14))%R) by apply bpow_gt_0.
    rewrite (np_log2_ok log2_fn std Fs ltac:(lra)). cbn [bind].
    destruct (LG std Fs) as [Fl Nl].
    { split; [apply Rle_trans with (bpow radix2 (-14)); [apply bpow_le; lia|apply Rs]|apply Rle_trans with (bpow radix2 14); [apply Rs|apply bpow_le; lia]]. }
    assert (SB : (bpow radix2 (-14) <= sqrt (B2R va) <= bpow radix2 14)%R).
    { rewrite <- (sqrt_bpow (-14)), <- (sqrt_bpow 14). split; apply sqrt_le_1_alt; apply Sa. }
    assert (ES : std_of f c i = sqrt (B2R va)) by (unfold std_of; rewrite Ba; reflexivity).
    pose proof (log2_near (B2R std) (sqrt (B2R va)) (proj1 Rs) (proj1 SB) Ns) as LN. pose proof (log2_range _ SB) as LR.
    change (bpow radix2 (-20)) with (/ 1048576)%R in Nl.
    assert (NL : (Rabs (B2R (log2_fn std) - log2R (sqrt (B2R va))) <= 2 / 1048576)%R).
    { replace (B2R (log2_fn std) - log2R (sqrt (B2R va)))%R with ((B2R (log2_fn std) - log2R (B2R std)) + (log2R (B2R std) - log2R (sqrt (B2R va))))%R by ring.
      eapply Rle_trans; [apply Rabs_triang|]. lra. }
    exists (mean, std, log2_fn std). split; [reflexivity|]. unfold entry_ok. rewrite ES. unfold mean_of. rewrite <- Bm.
    split; [split; [exact Fm|lra]|]. split; [split; [exact Fs|]|].
    { rewrite Rabs_pos_eq by lra. change (bpow radix2 14) with 16384%R in Rs. lra. }
    split; [split; [exact Fl|]|].
    { replace (B2R (log2_fn std)) with ((B2R (log2_fn std) - log2R (sqrt (B2R va))) + log2R (sqrt (B2R va)))%R by ring.
      eapply Rle_lt_trans; [apply Rabs_triang|]. lra. }
    split; [exact Sm|]. split; [exact SB|]. split; [reflexivity|]. split; [exact Ns|exact NL].
  - exists ys. auto.
Qed.

(** What the compiled model holds. *)
Definition model_of (m : bayes_model) : Prop :=
  bm_n_classes m = nc /\ bm_n_features m = nf /\ model_ok m /\
  forall c i, 0 <= c < nc -> 0 <= i < nf -> exists mean std lg, the_summary m c i = mk_summary (q16 mean) (q16 std) (q16 lg) /\ entry_ok c i (mean, std, lg).
Lemma saved method : In method [None; Some "loadable"%string] -> exists m, nb_init float_str log2_fn method f = Ret m /\ model_of m.
Proof using G LG SR.
  intros IM. destruct table_ok as (tab & E & LT & Q).
  assert (ER : forall r, In r tab -> zlen r = nf /\ Forall (fun '(a, b, c) => q16_fits a /\ q16_fits b /\ q16_fits c) r).
  { intros r Ir. destruct (In_zget _ _ Ir) as (c & Hr). pose proof (zget_bound _ _ _ Hr) as Bc. destruct (Q c ltac:(lia)) as (r' & Hr' & L' & Q').
    rewrite Hr in Hr'. injection Hr' as <-. split; [exact L'|]. apply Forall_forall. intros en Ie. destruct (In_zget _ _ Ie) as (i & Hi).
    pose proof (zget_bound _ _ _ Hi). destruct (Q' i ltac:(lia)) as (en' & He' & OK). rewrite Hi in He'. injection He' as <-.
    destruct en as [[a b] d]. destruct OK as (O1 & O2 & O3 & _). auto. }
  assert (FR : Forall (fun r => zlen r = nf) tab) by (apply Forall_forall; intros r Ir; apply (ER r Ir)).
  assert (FQ : Forall (Forall (fun '(a, b, c) => q16_fits a /\ q16_fits b /\ q16_fits c)) tab) by (apply Forall_forall; intros r Ir; apply (ER r Ir)).
  destruct (generated_table tab nf FQ FR) as (m & EG & M1 & M2 & M3 & M4).
  exists m. split.
  - unfold nb_init. rewrite E. cbn [bind].
    assert (ES : save_nb float_str tab = Ret m).
    { rewrite <- EG. unfold save_nb, generate_bayes, generate_summaries. destruct G as (Hc & Hf & _). destruct (Q 0 ltac:(lia)) as (r0 & H0 & L0 & _).
      rewrite (pyget_zget _ _ _ H0). cbn [bind]. rewrite L0.
      assert (FC : Forall (fun '(a, b, c) => q16_fits a /\ q16_fits b /\ q16_fits c) (concat tab)) by (apply Forall_concat; exact FQ).
      clear - FC SR. match goal with |- bind ?a _ = bind ?b _ => replace a with b; [reflexivity|] end.
      induction FC as [|[[a b] d] l (A & B & C) FC IH]; [reflexivity|]. cbn [mapM].
      destruct (q16_fits_ok a ltac:(lia) ltac:(lia) A) as [-> _]. destruct (q16_fits_ok b ltac:(lia) ltac:(lia) B) as [-> _].
      destruct (q16_fits_ok d ltac:(lia) ltac:(lia) C) as [-> _].
      rewrite (c_tofixed_ok _ _ SR A), (c_tofixed_ok _ _ SR B), (c_tofixed_ok _ _ SR C). cbn [bind]. rewrite IH. reflexivity. }
    destruct IM as [<-|[<-|[]]]; exact ES.
  - destruct G as (Hc & Hf & _). rewrite LT in M1, M3. split; [exact M1|]. split; [exact M2|]. split.
    + unfold model_ok. rewrite M1, M2, M3. change (2 ^ 31) with 2147483648. split; [lia|]. split; [reflexivity|]. nia.
    + intros c i Bc Bi. destruct (Q c Bc) as (r & Hr & Lr & Qr). destruct (Qr i Bi) as ([[mean std] lg] & He & OK). exists mean, std, lg. split; [|exact OK].
      specialize (M4 c i r mean std lg Hr He). unfold the_summary. rewrite M2.
      pose proof (zget_bound _ _ _ M4). rewrite (zget_nth _ _ (mk_summary 0 0 0)) in M4 by lia. injection M4 as M4. exact M4.
Qed.

(** ** One row *)
Section row.
Context (m : bayes_model) (row : list f64) (ws : list f32).
Hypothesis MO : model_of m.
Hypothesis LR : zlen row = nf.
Hypothesis FW : zlen ws = nf /\ forall i, 0 <= i < nf -> is_finite (nth (Z.to_nat i) ws B754_nan) = true /\
  (Rabs (B2R (nth (Z.to_nat i) ws B754_nan) - at1 row i) <= print8 (at1 row i))%R.
Hypothesis FT : row_fits nc f row.
Notation sc c i := (feature_score (q16 (nth (Z.to_nat i) ws B754_nan)) (the_summary m c i)).
Notation aw c i := (away_std (at1 row i) (mean_of f c i) (std_of f c i) + away_err (at1 row i) (mean_of f c i) (std_of f c i))%R.

Lemma feature_all c i : 0 <= c < nc -> 0 <= i < nf ->
  q16_fits (nth (Z.to_nat i) ws B754_nan) /\ feature_fits (q16 (nth (Z.to_nat i) ws B754_nan)) (the_summary m c i) /\
  (Rabs (IZR (sc c i) / 65536 - log_density (at1 row i) (mean_of f c i) (std_of f c i)) <= score_err (at1 row i) (mean_of f c i) (std_of f c i))%R /\
  (Rabs (IZR (sc c i) / 65536) <= 3 / 4 * aw c i ^ 2 + 20)%R.
Proof using MO LR FW FT.
  intros Hc Hi. destruct MO as (_ & _ & _ & MQ). destruct (MQ c i Hc Hi) as (mean & std & lg & ES & OK). rewrite ES.
  destruct OK as (_ & _ & _ & O4 & O5 & O6 & O7 & O8). destruct FT as (F1 & F2 & _). rewrite LR in F1, F2. destruct FW as (_ & FW2). destruct (FW2 i Hi) as [Fw Nw].
  pose proof (feature_good _ _ _ _ mean std lg (F1 i Hi) O4 O5 Nw O6 O7 O8 (F2 c i Hc Hi)) as [[FG FQ]|FG]; [|contradiction].
  split; [exact FQ|]. split; [exact FG|]. split; [exact (score_near _ _ _ _ mean std lg (F1 i Hi) O5 Nw O6 O7 O8)|exact (score_size _ _ _ _ mean std lg (F1 i Hi) O5 Nw O6 O7 O8)].
Qed.
Lemma sums c n : 0 <= c < nc -> (n <= length ws)%nat ->
  (Rabs (IZR (sum_scores m ws c n) / 65536 - sumr (Z.of_nat n) (fun i => log_density (at1 row i) (mean_of f c i) (std_of f c i)))
     <= sumr (Z.of_nat n) (fun i => score_err (at1 row i) (mean_of f c i) (std_of f c i)))%R /\
  (Rabs (IZR (sum_scores m ws c n) / 65536) <= sumr (Z.of_nat n) (fun i => 3 / 4 * aw c i ^ 2 + 20))%R.
Proof using MO LR FW FT.
  intros Hc. induction n as [|n IH]; intros Hn.
  - change (Z.of_nat 0) with 0. rewrite !sumr_0 by lia. cbn [sum_scores]. unfold Rdiv. rewrite Rmult_0_l, Rminus_0_r, Rabs_R0. lra.
  - destruct IH as [A B]; [lia|]. replace (Z.of_nat (S n)) with (Z.of_nat n + 1) by lia. rewrite !sumr_S by lia. cbn [sum_scores]. rewrite plus_IZR.
    destruct FW as (LW & _). destruct (feature_all c (Z.of_nat n) Hc) as (_ & _ & C & D); [unfold zlen in LW; lia|]. rewrite Nat2Z.id in C, D.
    set (S0 := IZR (sum_scores m ws c n)) in *. set (S1 := IZR (feature_score _ _)) in *.
    split.
    + match goal with |- (Rabs (_ - (?s + ?t)) <= _)%R => replace ((S0 + S1) / 65536 - (s + t))%R with ((S0 / 65536 - s) + (S1 / 65536 - t))%R by field end.
      eapply Rle_trans; [apply Rabs_triang|]. lra.
    + replace ((S0 + S1) / 65536)%R with (S0 / 65536 + S1 / 65536)%R by field. eapply Rle_trans; [apply Rabs_triang|]. lra.
Qed.
Lemma row_input_fits : input_fits m ws.
Proof using MO LR FW FT.
  intros c i Hc Hi. destruct MO as (M1 & _). rewrite M1 in Hc. destruct FW as (LW & _).
  destruct (feature_all c (Z.of_nat i) Hc) as (A & B & _); [unfold zlen in LW; lia|]. rewrite Nat2Z.id in A, B. split; [exact A|]. split; [exact B|].
  destruct (sums c (S i) Hc ltac:(lia)) as [_ D]. destruct FT as (_ & _ & F3). specialize (F3 c Hc). rewrite LR in F3.
  assert (MN : (sumr (Z.of_nat (S i)) (fun i => 3 / 4 * aw c i ^ 2 + 20) <= sumr nf (fun i => 3 / 4 * aw c i ^ 2 + 20))%R).
  { replace nf with (Z.of_nat (S i) + (nf - Z.of_nat (S i))) by ring. rewrite sumr_split by (unfold zlen in LW; lia).
    assert (0 <= sumr (nf - Z.of_nat (S i)) (fun d => 3 / 4 * aw c (Z.of_nat (S i) + d) ^ 2 + 20))%R; [|lra].
    apply sumr_nonneg. intros j _. set (t := (aw c (Z.of_nat (S i) + j))%R). pose proof (pow2_ge_0 t). lra. }
  set (K := sum_scores m ws c (S i)) in *. assert (BK : (Rabs (IZR K / 65536) <= 32000)%R) by lra.
  apply Rabs_le_inv in BK. unfold int32_ok. split; apply le_IZR; lra.
Qed.
Lemma totals c : 0 <= c < nc -> (Rabs (IZR (class_total m ws c) / 65536 - log_likelihood f row c) <= class_err f row c)%R.
Proof using MO LR FW FT.
  intros Hc. destruct (sums c (length ws) Hc ltac:(lia)) as [A _]. destruct FW as (LW & _). unfold zlen in LW. rewrite LW in A.
  unfold class_total, log_likelihood, class_err. rewrite LR. exact A.
Qed.
Lemma row_predict junk : zlen junk >= 10 -> exists c, eml_bayes_predict junk m ws nf = Ret c /\ 0 <= c < nc /\
  forall d, 0 <= d < nc -> (log_likelihood f row d <= log_likelihood f row c + (class_err f row c + class_err f row d))%R.
Proof using MO LR FW FT G.
  intros HJ. pose proof MO as (M1 & M2 & M3 & _). pose proof FW as (LW & _). destruct G as (Hc & _).
  destruct (predict_ok junk m ws HJ M3 ltac:(lia) ltac:(lia) row_input_fits) as (c & E & B1 & B2 & _). rewrite M1 in B1, B2. rewrite LW in E.
  exists c. split; [exact E|]. split; [exact B1|]. intros d Hd. pose proof (totals c B1) as Tc. pose proof (totals d Hd) as Td.
  specialize (B2 d Hd). apply IZR_le in B2. apply Rabs_le_inv in Tc. apply Rabs_le_inv in Td. lra.
Qed.
End row.

Theorem nb_run method junk X : In method [None; Some "loadable"%string] -> zlen junk >= 10 -> float_rows nf X -> Forall (row_fits nc f) X ->
  exists m out, nb_init float_str log2_fn method f = Ret m /\ nb_predict junk m X = Ret out /\ zlen out = zlen X /\
  forall i row, zget X i = Ret row -> exists c, zget out i = Ret (PyInt c) /\ 0 <= c < nc /\
    forall d, 0 <= d < nc -> (log_likelihood f row d <= log_likelihood f row c + (class_err f row c + class_err f row d))%R.
Proof using G LG SR.
  intros IM HJ HX HF. destruct (saved method IM) as (m & EM & MO). exists m. pose proof G as (Hc & Hf & _).
  destruct (float_rows_fit nf X HX ltac:(lia)) as (NX & GX & AX & LX). destruct HX as (_ & _ & FX).
  destruct (predict_classes (nb_func junk m) X
    (fun row c => 0 <= c < nc /\ forall d, 0 <= d < nc -> (log_likelihood f row d <= log_likelihood f row c + (class_err f row c + class_err f row d))%R)
    NX GX AX LX) as (out & E & LO & R).
  { intros row values Ir Hv. rewrite Forall_forall in FX, HF. destruct (FX row Ir) as (LR & GR & _).
    destruct (row_values nf row values LR GR Hv) as (ws & AW & LW & EC).
    assert (FW : zlen ws = nf /\ forall i, 0 <= i < nf -> is_finite (nth (Z.to_nat i) ws B754_nan) = true /\
      (Rabs (B2R (nth (Z.to_nat i) ws B754_nan) - at1 row i) <= print8 (at1 row i))%R).
    { split; [exact LW|]. intros i Hi. destruct (zget_ok row i ltac:(lia)) as [v Hv']. destruct (Forall2_zget _ _ _ _ _ AW Hv') as (w & Hw & Fw & T).
      rewrite (zget_nth ws i B754_nan) in Hw by lia. injection Hw as ->. split; [exact Fw|].
      rewrite Forall_forall in GR. destruct (GR v (zget_In _ _ _ Hv')) as [_ Bv]. rewrite (zget_nth row i fzero) in Hv' by lia. injection Hv' as Hv'.
      unfold at1. rewrite Hv'. apply (through8_f32 (B2R v) w Bv T). }
    destruct (row_predict m row ws MO LR FW (HF row Ir) junk HJ) as (c & Ec & Bc & Q).
    exists c. split; [|split; [lia|auto]]. unfold nb_func. rewrite EC. cbn [bind]. rewrite LR, Ec. reflexivity. }
  exists out. split; [exact EM|]. split; [exact E|]. split; [exact LO|]. exact R.
Qed.
End run.
