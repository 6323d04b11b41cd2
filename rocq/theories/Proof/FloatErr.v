(** Rounding errors of float32 expressions: a float [tracks] a real number. *)
From Coq Require Import ZArith List Bool Lia Reals Lra.
From Flocq Require Import Core BinarySingleNaN.
From Flocq.Prop Require Import Relative.
From Verif.Base Require Import Res ListX Loops Float FloatOrder Arith Kernels RealSum.
From Verif.Spec Require Import RealSpec RoundingSpec.
From Verif.Proof Require Import FloatMean.
Import ListNotations.
Open Scope R_scope.

#[local] Instance vexp24 : Valid_exp (SpecFloat.fexp 24 128) := FLT_exp_valid _ _.

Definition tracks (g : nat) (T S : R) (s : f32) : Prop :=
  is_finite s = true /\ Rabs (B2R s - S) <= rel g * T /\ Rabs S <= T.

Lemma pow_ge_1 g : 1 <= (1 + u24) ^ g.
Proof. apply pow_R1_Rle. lra. Qed.
Lemma rel_nonneg g : 0 <= rel g.
Proof. unfold rel. pose proof (pow_ge_1 g). lra. Qed.
Lemma rel_0 : rel 0 = 0.
Proof. unfold rel. simpl. lra. Qed.
Lemma rel_S g : rel (S g) = rel g * (1 + u24) + u24.
Proof. unfold rel. simpl. lra. Qed.
Lemma rel_mono g h : (g <= h)%nat -> rel g <= rel h.
Proof. intros H. unfold rel. apply Rplus_le_compat_r. apply Rle_pow; [lra|exact H]. Qed.
Lemma rel_add g h : rel (g + h) = rel g * rel h + rel g + rel h.
Proof. unfold rel. rewrite pow_add. ring. Qed.
Lemma rel_S_ge g : u24 <= rel (S g).
Proof. rewrite rel_S. pose proof (rel_nonneg g). lra. Qed.
(** The usual closed form: g u / (1 - g u); here, with g at most 2^23, 2 g u. *)
Lemma rel_lin g : (INR g <= 8388608) -> rel g <= 2 * INR g * u24.
Proof.
  intros H. assert (G : forall k, INR k <= 8388608 -> (1 + u24) ^ k <= / (1 - INR k * u24)).
  { clear g H. induction k as [|k IH]; intros H.
    - simpl. rewrite Rmult_0_l, Rminus_0_r, Rinv_1. lra.
    - rewrite S_INR in H. assert (P : 0 <= INR k) by apply pos_INR. specialize (IH ltac:(lra)). rewrite S_INR.
      cbn [pow].
      apply Rle_trans with ((1 + u24) * / (1 - INR k * u24)).
      + apply Rmult_le_compat_l; lra.
      + apply Rmult_le_reg_r with ((1 - INR k * u24) * (1 - (INR k + 1) * u24)).
        * apply Rmult_lt_0_compat; lra.
        * replace ((1 + u24) * / (1 - INR k * u24) * ((1 - INR k * u24) * (1 - (INR k + 1) * u24)))
            with ((1 + u24) * (1 - (INR k + 1) * u24)) by (field; lra).
          replace (/ (1 - (INR k + 1) * u24) * ((1 - INR k * u24) * (1 - (INR k + 1) * u24))) with (1 - INR k * u24) by (field; lra).
          nra. }
  specialize (G g H). unfold rel. assert (P : 0 <= INR g) by apply pos_INR.
  assert (/ (1 - INR g * u24) <= 1 + 2 * INR g * u24); [|lra].
  apply Rmult_le_reg_r with (1 - INR g * u24); [lra|]. rewrite Rinv_l by lra.
  assert (0 <= INR g * u24 <= / 2) by lra. nra.
Qed.
Lemma rel_1 g : (INR g <= 8388608) -> rel g <= 1.
Proof. intros H. pose proof (rel_lin g H). lra. Qed.

Lemma max32_126 : bpow radix2 126 = 67108864 * max32.
Proof. change 67108864 with (bpow radix2 26). unfold max32. rewrite <- bpow_plus. reflexivity. Qed.
Lemma max32_pos : 0 < max32. Proof. apply bpow_gt_0. Qed.
Lemma tiny32_pos : 0 < tiny32. Proof. apply bpow_gt_0. Qed.
Lemma tiny_u : u24 * tiny32 = bpow radix2 (-150).
Proof. unfold tiny32. change u24 with (bpow radix2 (-24)). rewrite <- bpow_plus. reflexivity. Qed.

Lemma tracks_T g T S s : tracks g T S s -> 0 <= T.
Proof. intros (_ & _ & H). pose proof (Rabs_pos S). lra. Qed.
Lemma tracks_mag g T S s : tracks g T S s -> Rabs (B2R s) <= (1 + u24) ^ g * T.
Proof.
  intros (_ & H & H'). replace (B2R s) with ((B2R s - S) + S) by ring. eapply Rle_trans; [apply Rabs_triang|].
  unfold rel in H. lra.
Qed.
Lemma tracks_weaken g h T U S s : tracks g T S s -> (g <= h)%nat -> T <= U -> tracks h U S s.
Proof.
  intros K GH TU. pose proof (tracks_T _ _ _ _ K). destruct K as (F & E & M). split; [exact F|]. split; [|lra].
  eapply Rle_trans; [exact E|]. apply Rmult_le_compat; auto using rel_nonneg, rel_mono.
Qed.
Lemma tracks_exact (x : f32) : is_finite x = true -> tracks 0 (Rabs (B2R x)) (B2R x) x.
Proof. intros F. split; [exact F|]. rewrite rel_0. split; [|lra]. rewrite Rminus_diag_eq, Rabs_R0 by reflexivity. lra. Qed.
Lemma tracks_zero : tracks 0 0 0 (fzero : f32).
Proof. pose proof (tracks_exact fzero eq_refl) as H. cbn [B2R fzero] in H. rewrite Rabs_R0 in H. exact H. Qed.

(** a bound on the magnitude that keeps everything finite *)
Lemma mag_ok g T S (s : f32) : tracks g T S s -> INR g <= 8388608 -> Rabs (B2R s) <= 2 * T.
Proof.
  intros K G. pose proof (tracks_T _ _ _ _ K). eapply Rle_trans; [apply (tracks_mag _ _ _ _ K)|].
  pose proof (rel_1 g G) as Q. unfold rel in Q. apply Rmult_le_compat_r; lra.
Qed.

Lemma round_step (v r S T eps : R) (g : nat) : Rabs eps <= u24 -> Rabs (v - S) <= rel g * T -> Rabs S <= T -> r = v * (1 + eps) ->
  Rabs (r - S) <= rel (Datatypes.S g) * T.
Proof.
  intros E D M ->. replace (v * (1 + eps) - S) with ((v - S) * (1 + eps) + S * eps) by ring.
  eapply Rle_trans; [apply Rabs_triang|]. rewrite !Rabs_mult, rel_S.
  assert (P1 : Rabs (1 + eps) <= 1 + u24) by (eapply Rle_trans; [apply Rabs_triang|]; rewrite Rabs_R1; lra).
  assert (Rabs (v - S) * Rabs (1 + eps) <= rel g * T * (1 + u24)) by (apply Rmult_le_compat; auto using Rabs_pos).
  assert (Rabs S * Rabs eps <= T * u24) by (apply Rmult_le_compat; auto using Rabs_pos). lra.
Qed.

Lemma tracks_add g T1 S1 T2 S2 (a b : f32) : tracks g T1 S1 a -> tracks g T2 S2 b -> INR g <= 8388608 -> T1 + T2 <= 2 * max32 ->
  tracks (S g) (T1 + T2) (S1 + S2) (fadd a b).
Proof.
  intros Ka Kb G L. pose proof (mag_ok _ _ _ _ Ka G). pose proof (mag_ok _ _ _ _ Kb G). pose proof (tracks_T _ _ _ _ Ka). pose proof (tracks_T _ _ _ _ Kb).
  destruct Ka as (Fa & Da & Ma), Kb as (Fb & Db & Mb). pose proof max32_pos.
  destruct (fadd32 a b Fa Fb) as (F & eps & E & V). { rewrite max32_126. eapply Rle_trans; [apply Rabs_triang|]. lra. }
  assert (MM : Rabs (S1 + S2) <= T1 + T2) by (eapply Rle_trans; [apply Rabs_triang|]; lra).
  split; [exact F|]. split; [|exact MM]. apply (round_step (B2R a + B2R b) _ _ _ eps g E); [|exact MM|exact V].
  replace (B2R a + B2R b - (S1 + S2)) with ((B2R a - S1) + (B2R b - S2)) by ring. eapply Rle_trans; [apply Rabs_triang|]. lra.
Qed.
Lemma tracks_neg g T S (a : f32) : tracks g T S a -> tracks g T (- S) (Bopp a).
Proof.
  intros (F & D & M). split; [now rewrite is_finite_Bopp|]. rewrite B2R_Bopp, Rabs_Ropp.
  replace (- B2R a - - S) with (- (B2R a - S)) by ring. rewrite Rabs_Ropp. auto.
Qed.
Lemma fsub_fadd (a b : f32) : is_finite a = true -> is_finite b = true -> Rabs (B2R a - B2R b) <= bpow radix2 126 ->
  is_finite (fsub a b) = true /\ exists eps, Rabs eps <= u24 /\ B2R (fsub a b) = (B2R a - B2R b) * (1 + eps).
Proof.
  intros Fa Fb L. assert (Fb' : is_finite (Bopp b) = true) by now rewrite is_finite_Bopp.
  destruct (fadd32 a (Bopp b) Fa Fb') as (F & eps & E & V). { rewrite B2R_Bopp. exact L. }
  rewrite B2R_Bopp in V.
  pose proof (Bminus_correct 24 128 _ _ mode_NE a b Fa Fb) as C.
  pose proof (Bplus_correct 24 128 _ _ mode_NE a (Bopp b) Fa Fb') as C'. rewrite B2R_Bopp in C'.
  change (B2R a + - B2R b) with (B2R a - B2R b) in C', V. simpl round_mode in C, C'.
  destruct (Rlt_bool _ _).
  - destruct C as (C1 & C2 & _). destruct C' as (C1' & _ & _). split; [exact C2|]. exists eps. split; [exact E|].
    change (B2R (fsub a b) = round radix2 (SpecFloat.fexp 24 128) ZnearestE (B2R a - B2R b)) in C1.
    change (B2R (fadd a (Bopp b)) = round radix2 (SpecFloat.fexp 24 128) ZnearestE (B2R a - B2R b)) in C1'. congruence.
  - exfalso. destruct C' as [C' _]. change (B2SF (fadd a (Bopp b)) = SpecFloat.S754_infinity (Bsign a)) in C'.
    rewrite <- is_finite_SF_B2SF, C' in F. discriminate.
Qed.
Lemma tracks_sub g T1 S1 T2 S2 (a b : f32) : tracks g T1 S1 a -> tracks g T2 S2 b -> INR g <= 8388608 -> T1 + T2 <= 2 * max32 ->
  tracks (S g) (T1 + T2) (S1 - S2) (fsub a b).
Proof.
  intros Ka Kb G L. pose proof (mag_ok _ _ _ _ Ka G). pose proof (mag_ok _ _ _ _ Kb G). pose proof (tracks_T _ _ _ _ Ka). pose proof (tracks_T _ _ _ _ Kb).
  destruct Ka as (Fa & Da & Ma), Kb as (Fb & Db & Mb). pose proof max32_pos.
  destruct (fsub_fadd a b Fa Fb) as (F & eps & E & V). { rewrite max32_126. unfold Rminus. eapply Rle_trans; [apply Rabs_triang|]. rewrite Rabs_Ropp. lra. }
  assert (MM : Rabs (S1 - S2) <= T1 + T2) by (unfold Rminus; eapply Rle_trans; [apply Rabs_triang|]; rewrite Rabs_Ropp; lra).
  split; [exact F|]. split; [|exact MM]. apply (round_step (B2R a - B2R b) _ _ _ eps g E); [|exact MM|exact V].
  replace (B2R a - B2R b - (S1 - S2)) with ((B2R a - S1) + - (B2R b - S2)) by ring. eapply Rle_trans; [apply Rabs_triang|]. rewrite Rabs_Ropp. lra.
Qed.
(** The difference of two given numbers. *)
Lemma tracks_diff (a b : f32) : is_finite a = true -> is_finite b = true -> Rabs (B2R a - B2R b) <= max32 ->
  tracks 1 (Rabs (B2R a - B2R b)) (B2R a - B2R b) (fsub a b).
Proof.
  intros Fa Fb L. pose proof max32_pos. destruct (fsub_fadd a b Fa Fb) as (F & eps & E & V). { rewrite max32_126. lra. }
  split; [exact F|]. split; [|lra]. apply (round_step (B2R a - B2R b) _ _ _ eps 0 E); [|lra|exact V].
  rewrite Rminus_diag_eq, Rabs_R0, rel_0 by reflexivity. lra.
Qed.

Lemma fmul32 (a b : f32) : is_finite a = true -> is_finite b = true -> Rabs (B2R a * B2R b) <= bpow radix2 126 ->
  is_finite (fmul a b) = true /\ exists eps eta, Rabs eps <= u24 /\ Rabs eta <= bpow radix2 (-150) /\ B2R (fmul a b) = B2R a * B2R b * (1 + eps) + eta.
Proof.
  intros Fa Fb L.
  pose proof (Bmult_correct 24 128 _ _ mode_NE a b) as C. simpl round_mode in C.
  destruct (@error_N_FLT radix2 (SpecFloat.emin 24 128) 24 eq_refl (fun x => negb (Z.even x)) (B2R a * B2R b)) as (eps & eta & E1 & E2 & _ & E).
  change (round radix2 (FLT_exp (SpecFloat.emin 24 128) 24) (Znearest (fun x => negb (Z.even x))) (B2R a * B2R b))
    with (round radix2 (SpecFloat.fexp 24 128) ZnearestE (B2R a * B2R b)) in E.
  assert (E1' : (Rabs eps <= u24)%R) by (change (bpow radix2 (Z.opp 24 + 1)) with (/ 8388608)%R in E1; lra).
  assert (E2' : (Rabs eta <= bpow radix2 (-150))%R).
  { replace (bpow radix2 (-150)) with (/ 2 * bpow radix2 (SpecFloat.emin 24 128))%R; [exact E2|]. change (/ 2)%R with (bpow radix2 (-1)). rewrite <- bpow_plus. reflexivity. }
  rewrite E in C. rewrite Rlt_bool_true in C.
  - destruct C as (C1 & C2 & _). rewrite Fa, Fb in C2. split; [exact C2|]. exists eps, eta. auto.
  - eapply Rle_lt_trans; [apply Rabs_triang|]. rewrite Rabs_mult.
    assert (P1 : Rabs (1 + eps) <= 2) by (eapply Rle_trans; [apply Rabs_triang|]; rewrite Rabs_R1; lra).
    assert (bpow radix2 128 = 4 * bpow radix2 126)%R as -> by (change 4%R with (bpow radix2 2); rewrite <- bpow_plus; reflexivity).
    assert (1 <= bpow radix2 126)%R by (change 1%R with (bpow radix2 0); apply bpow_le; lia).
    assert (bpow radix2 (-150) <= 1)%R by (change 1%R with (bpow radix2 0); apply bpow_le; lia).
    assert (Rabs (B2R a * B2R b) * Rabs (1 + eps) <= bpow radix2 126 * 2) by (apply Rmult_le_compat; auto using Rabs_pos). lra.
Qed.
Lemma tracks_mul g h T1 S1 T2 S2 (a b : f32) : tracks g T1 S1 a -> tracks h T2 S2 b -> INR (g + h) <= 8388608 -> T1 * T2 <= 2 * max32 ->
  tracks (S (g + h)) (T1 * T2 + tiny32) (S1 * S2) (fmul a b).
Proof.
  intros Ka Kb G L. pose proof (tracks_T _ _ _ _ Ka) as PT1. pose proof (tracks_T _ _ _ _ Kb) as PT2.
  pose proof (tracks_mag _ _ _ _ Ka) as Aa. pose proof (tracks_mag _ _ _ _ Kb) as Ab.
  destruct Ka as (Fa & Da & Ma), Kb as (Fb & Db & Mb). pose proof max32_pos. pose proof tiny32_pos.
  assert (P12 : 0 <= T1 * T2) by (apply Rmult_le_pos; auto).
  assert (MM : Rabs (S1 * S2) <= T1 * T2) by (rewrite Rabs_mult; apply Rmult_le_compat; auto using Rabs_pos).
  assert (D : Rabs (B2R a * B2R b - S1 * S2) <= rel (g + h) * (T1 * T2)).
  { replace (B2R a * B2R b - S1 * S2) with ((B2R a - S1) * (B2R b - S2) + (B2R a - S1) * S2 + S1 * (B2R b - S2)) by ring.
    eapply Rle_trans; [apply Rabs_triang|]. eapply Rle_trans; [apply Rplus_le_compat_r; apply Rabs_triang|]. rewrite !Rabs_mult, rel_add.
    assert (Rabs (B2R a - S1) * Rabs (B2R b - S2) <= (rel g * T1) * (rel h * T2)) by (apply Rmult_le_compat; auto using Rabs_pos).
    assert (Rabs (B2R a - S1) * Rabs S2 <= (rel g * T1) * T2) by (apply Rmult_le_compat; auto using Rabs_pos).
    assert (Rabs S1 * Rabs (B2R b - S2) <= T1 * (rel h * T2)) by (apply Rmult_le_compat; auto using Rabs_pos). lra. }
  assert (AB : Rabs (B2R a * B2R b) <= 4 * max32).
  { replace (B2R a * B2R b) with ((B2R a * B2R b - S1 * S2) + S1 * S2) by ring. eapply Rle_trans; [apply Rabs_triang|].
    pose proof (rel_1 _ G). assert (rel (g + h) * (T1 * T2) <= 1 * (T1 * T2)) by (apply Rmult_le_compat_r; auto). lra. }
  destruct (fmul32 a b Fa Fb) as (F & eps & eta & E1 & E2 & V). { rewrite max32_126. lra. }
  split; [exact F|]. split; [|lra].
  replace (B2R (fmul a b) - S1 * S2) with ((B2R a * B2R b * (1 + eps) - S1 * S2) + eta) by (rewrite V; ring).
  eapply Rle_trans; [apply Rabs_triang|].
  pose proof (round_step (B2R a * B2R b) _ (S1 * S2) (T1 * T2) eps (g + h) E1 D MM eq_refl) as Q.
  rewrite <- tiny_u in E2. pose proof (rel_S_ge (g + h)). assert (u24 * tiny32 <= rel (S (g + h)) * tiny32) by (apply Rmult_le_compat_r; lra). lra.
Qed.
Lemma fle32 (x y : f32) : is_finite x = true -> is_finite y = true -> (fleb x y = true <-> B2R x <= B2R y).
Proof. intros Fx Fy. unfold fleb. rewrite Bleb_correct by auto. split; [intros H; destruct (Rle_bool_spec (B2R x) (B2R y)); [auto|discriminate]|apply Rle_bool_true]. Qed.
Lemma flt32 (x y : f32) : is_finite x = true -> is_finite y = true -> (fltb x y = true <-> B2R x < B2R y).
Proof. intros Fx Fy. unfold fltb. rewrite Bltb_correct by auto. split; [intros H; destruct (Rlt_bool_spec (B2R x) (B2R y)); [auto|discriminate]|apply Rlt_bool_true]. Qed.
(** relu never increases the distance *)
Lemma tracks_relu g T S (s : f32) : tracks g T S s -> tracks g T (Rmax 0 S) (if fleb s fzero then fzero else s).
Proof.
  intros K. pose proof (tracks_T _ _ _ _ K) as PT. destruct K as (F & D & M).
  assert (PM : Rabs (Rmax 0 S) <= T).
  { unfold Rmax. destruct (Rle_dec 0 S); [exact M|]. rewrite Rabs_R0. exact PT. }
  destruct (fleb s fzero) eqn:L.
  - apply (fle32 s fzero F eq_refl) in L. change (B2R fzero) with 0 in L. split; [reflexivity|]. split; [|exact PM].
    change (B2R fzero) with 0. eapply Rle_trans; [|exact D]. unfold Rmax. destruct (Rle_dec 0 S).
    + rewrite (Rabs_left1 (0 - S)), (Rabs_left1 (B2R s - S)) by lra. lra.
    + rewrite Rminus_0_r, Rabs_R0. apply Rabs_pos.
  - assert (L' : ~ B2R s <= 0). { intros H. apply (fle32 s fzero F eq_refl) in H. congruence. }
    split; [exact F|]. split; [|exact PM]. eapply Rle_trans; [|exact D]. unfold Rmax. destruct (Rle_dec 0 S); [lra|].
    rewrite Rminus_0_r, !Rabs_pos_eq by lra. lra.
Qed.
(** Sums accumulated from zero. *)
Lemma tracks_sum (n : Z) (fs : f32 -> Z -> f32) (term : Z -> f32) g (T S : Z -> R) :
  (forall s i, (0 <= i < n)%Z -> fs s i = fadd s (term i)) ->
  (forall i, (0 <= i < n)%Z -> tracks g (T i) (S i) (term i)) -> INR (g + Z.to_nat n) <= 8388608 -> sumr n T <= 2 * max32 ->
  (0 <= n)%Z -> tracks (g + Z.to_nat n) (sumr n T) (sumr n S) (fold_left fs (zrange n) fzero).
Proof.
  intros Hf Ht G L Hn.
  assert (TP : forall i, (0 <= i < n)%Z -> 0 <= T i) by (intros i Hi; apply (tracks_T _ _ _ _ (Ht i Hi))).
  enough (Q : forall k, (0 <= k)%Z -> (k <= n)%Z -> tracks (g + Z.to_nat k) (sumr k T) (sumr k S) (fold_left fs (zrange k) fzero)) by (apply Q; lia).
  apply (sumr_ind (fun k => (k <= n)%Z -> tracks (g + Z.to_nat k) (sumr k T) (sumr k S) (fold_left fs (zrange k) fzero))).
  - intros _. rewrite !sumr_0, zrange_0 by lia. cbn [fold_left]. eapply tracks_weaken; [apply tracks_zero|lia|lra].
  - intros k Hk IH Kn. rewrite !sumr_S, zrange_S, fold_left_app by lia. cbn [fold_left]. rewrite Hf by lia.
    replace (g + Z.to_nat (k + 1))%nat with (Datatypes.S (g + Z.to_nat k)) by lia.
    assert (GK : INR (g + Z.to_nat k) <= 8388608) by (eapply Rle_trans; [apply le_INR|exact G]; lia).
    assert (LK : sumr k T + T k <= 2 * max32).
    { rewrite <- sumr_S by lia. replace n with ((k + 1) + (n - (k + 1)))%Z in L by lia. rewrite sumr_split in L by lia.
      assert (0 <= sumr (n - (k + 1)) (fun d => T (k + 1 + d)%Z)) by (apply sumr_nonneg; intros; apply TP; lia). lra. }
    apply tracks_add; auto.
    + apply IH. lia.
    + eapply tracks_weaken; [apply Ht; lia|lia|lra].
Qed.
