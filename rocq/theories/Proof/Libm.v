(** A correctly rounded C library meets what is asked of expf and tanhf. *)
From Coq Require Import ZArith Bool Lia Reals Lra.
From Flocq Require Import Core BinarySingleNaN.
From Flocq.Prop Require Import Relative.
From Verif.Base Require Import Res Float FloatOrder Arith.
From Verif.Spec Require Import RoundingSpec.
From Verif.Proof Require Import FloatMean FloatErr Logistic.
Open Scope R_scope.

#[local] Instance vexp24 : Valid_exp (SpecFloat.fexp 24 128) := FLT_exp_valid _ _.
Notation rn32 := (round radix2 (SpecFloat.fexp 24 128) ZnearestE).

(** The float32 nearest to a real number. *)
Definition f_of_R (r : R) : f32 :=
  binary_normalize 24 128 eq_refl eq_refl mode_NE (ZnearestE (scaled_mantissa radix2 (SpecFloat.fexp 24 128) r)) (cexp radix2 (SpecFloat.fexp 24 128) r) false.

Lemma f_of_R_correct r : (Rabs (rn32 r) < bpow radix2 128 -> B2R (f_of_R r) = rn32 r /\ is_finite (f_of_R r) = true) /\
  (0 <= r -> bpow radix2 128 <= Rabs (rn32 r) -> f_of_R r = B754_infinity false).
Proof.
  pose proof (binary_normalize_correct 24 128 eq_refl eq_refl mode_NE (ZnearestE (scaled_mantissa radix2 (SpecFloat.fexp 24 128) r)) (cexp radix2 (SpecFloat.fexp 24 128) r) false) as C.
  cbv zeta in C. simpl round_mode in C.
  change (F2R {| Fnum := ZnearestE (scaled_mantissa radix2 (SpecFloat.fexp 24 128) r); Fexp := cexp radix2 (SpecFloat.fexp 24 128) r |}) with (rn32 r) in C.
  fold (f_of_R r) in C.
  rewrite (round_generic radix2 (SpecFloat.fexp 24 128) ZnearestE (rn32 r)) in C by (apply generic_format_round; auto with typeclass_instances).
  split.
  - intros L. rewrite Rlt_bool_true in C by exact L. destruct C as (C1 & C2 & _). auto.
  - intros P L. rewrite Rlt_bool_false in C by exact L. assert (P' : 0 <= rn32 r) by (apply round_ge_generic; auto with typeclass_instances; apply generic_format_0).
    rewrite Rlt_bool_false in C by exact P'. change (binary_overflow 24 128 mode_NE false) with (SpecFloat.S754_infinity false) in C.
    destruct (f_of_R r) as [s|s| |s m e Hb]; try discriminate C. cbn in C. now injection C as ->.
Qed.
Lemma rn32_bpow e : (-149 <= e)%Z -> rn32 (bpow radix2 e) = bpow radix2 e.
Proof.
  intros H. apply round_generic; auto with typeclass_instances. apply generic_format_bpow. unfold SpecFloat.fexp, SpecFloat.emin. lia.
Qed.

Definition expf_cr (x : f32) : f32 := f_of_R (exp (B2R x)).
Definition tanhf_cr (x : f32) : f32 := f_of_R (tanh (B2R x)).

Lemma expf_cr_ok : @expf_ok expf_cr u24.
Proof.
  intros x F. unfold expf_cr. set (r := B2R x). pose proof (exp_pos r) as PX. destruct (f_of_R_correct (exp r)) as [C1 C2].
  pose proof exp64_lo as XL. pose proof exp64_hi as XH. pose proof (bpow_gt_0 radix2 80) as P80.
  assert (N64 : / bpow radix2 102 <= exp (-64) <= bpow radix2 (-80)).
  { replace (-64) with (- (64)) by ring. rewrite exp_Ropp. change (-80)%Z with (- (80))%Z. rewrite bpow_opp. pose proof (exp_pos 64). split; apply Rinv_le; lra. }
  assert (MON : forall a b, a <= b -> exp a <= exp b).
  { intros a b [H|H]; [left; now apply exp_increasing|rewrite H; lra]. }
  split; [|split].
  - intros H. apply Rabs_le_inv in H.
    assert (U : exp r <= bpow radix2 102) by (eapply Rle_trans; [apply (MON r 64); lra|exact XH]).
    assert (Lo : bpow radix2 (-102) <= exp r) by (change (-102)%Z with (- (102))%Z; rewrite bpow_opp; eapply Rle_trans; [apply N64|apply MON; lra]).
    assert (RE : Rabs (rn32 (exp r) - exp r) <= / 2 * bpow radix2 (-24 + 1) * Rabs (exp r)).
    { apply (relative_error_N_FLT radix2 (SpecFloat.emin 24 128) 24 eq_refl (fun x => negb (Z.even x))).
      rewrite Rabs_pos_eq by lra. eapply Rle_trans; [|exact Lo]. apply bpow_le. vm_compute. discriminate. }
    rewrite (Rabs_pos_eq (exp r)) in RE by lra. change (bpow radix2 (-24 + 1)) with (/ 8388608)%R in RE.
    assert (RB : Rabs (rn32 (exp r)) <= bpow radix2 102).
    { rewrite <- (rn32_bpow 102) by lia. rewrite Rabs_pos_eq; [apply round_le; auto with typeclass_instances|].
      apply round_ge_generic; auto with typeclass_instances; [apply generic_format_0|lra]. }
    destruct C1 as [V Fi]. { eapply Rle_lt_trans; [exact RB|]. apply bpow_lt. lia. }
    split; [exact Fi|]. rewrite V. lra.
  - intros H. assert (Lo : bpow radix2 80 <= rn32 (exp r)).
    { rewrite <- (rn32_bpow 80) by lia. apply round_le; auto with typeclass_instances. eapply Rle_trans; [exact XL|]. apply MON. lra. }
    assert (V80 : B2R (f_of_ZE 1 80 : f32) = bpow radix2 80 /\ is_finite (f_of_ZE 1 80 : f32) = true).
    { pose proof (binary_normalize_correct 24 128 eq_refl eq_refl mode_NE 1 80 false) as C. cbv zeta in C. simpl round_mode in C.
      assert (V : F2R {| Fnum := 1; Fexp := 80 |} = bpow radix2 80) by (unfold F2R; cbn [Fnum Fexp]; apply Rmult_1_l). rewrite V, rn32_bpow in C by lia.
      rewrite Rlt_bool_true in C by (rewrite Rabs_pos_eq by apply bpow_ge_0; apply bpow_lt; lia).
      destruct C as (K1 & K2 & _). split; [exact K1|exact K2]. }
    destruct V80 as [V80 F80].
    destruct (Rlt_le_dec (Rabs (rn32 (exp r))) (bpow radix2 128)) as [L|L].
    + destruct (C1 L) as [V Fi]. apply (fle32 _ _ F80 Fi). rewrite V80, V. exact Lo.
    + rewrite C2 by (auto; lra). vm_compute. reflexivity.
  - intros H. assert (Hi : rn32 (exp r) <= bpow radix2 (-80)).
    { rewrite <- (rn32_bpow (-80)) by lia. apply round_le; auto with typeclass_instances. eapply Rle_trans; [|apply N64]. apply MON. lra. }
    assert (Lo : 0 <= rn32 (exp r)) by (apply round_ge_generic; auto with typeclass_instances; [apply generic_format_0|lra]).
    destruct C1 as [V Fi]. { rewrite Rabs_pos_eq by exact Lo. eapply Rle_lt_trans; [exact Hi|]. apply bpow_lt. lia. }
    split; [exact Fi|]. rewrite V. lra.
Qed.
Lemma tanhf_cr_ok : @tanhf_ok tanhf_cr (2 * u24).
Proof.
  intros x F. unfold tanhf_cr. set (t := tanh (B2R x)). pose proof (tanh_bound (B2R x)) as TB. fold t in TB.
  destruct (@error_N_FLT radix2 (SpecFloat.emin 24 128) 24 eq_refl (fun x => negb (Z.even x)) t) as (eps & eta & E1 & E2 & _ & E).
  change (round radix2 (FLT_exp (SpecFloat.emin 24 128) 24) (Znearest (fun x => negb (Z.even x))) t) with (rn32 t) in E.
  assert (E1' : (Rabs eps <= u24)%R) by (change (bpow radix2 (Z.opp 24 + 1)) with (/ 8388608)%R in E1; lra).
  assert (E2' : (Rabs eta <= u24)%R).
  { eapply Rle_trans; [exact E2|]. change (/ 2)%R with (bpow radix2 (-1)). rewrite <- bpow_plus. change u24 with (bpow radix2 (-24)). apply bpow_le. vm_compute. discriminate. }
  assert (D : Rabs (rn32 t - t) <= 2 * u24).
  { rewrite E. replace (t * (1 + eps) + eta - t) with (t * eps + eta) by ring. eapply Rle_trans; [apply Rabs_triang|]. rewrite Rabs_mult.
    assert (Rabs t * Rabs eps <= 1 * u24) by (apply Rmult_le_compat; auto using Rabs_pos). lra. }
  destruct (f_of_R_correct t) as [C1 _]. destruct C1 as [V Fi].
  { replace (rn32 t) with ((rn32 t - t) + t) by ring. eapply Rle_lt_trans; [apply Rabs_triang|].
    assert (4 <= bpow radix2 128) by (change 4 with (bpow radix2 2); apply bpow_le; lia). lra. }
  split; [exact Fi|]. rewrite V. exact D.
Qed.
Definition logf_cr (x : f32) : f32 := f_of_R (ln (B2R x)).
Lemma logf_cr_ok : @logf_ok logf_cr (18 * u24).
Proof.
  intros x F B. unfold logf_cr. set (t := ln (B2R x)).
  assert (T1 : t <= 17).
  { unfold t. rewrite <- (ln_exp 17). assert (L : B2R x <= exp 17).
    { assert (G : forall n, exp (INR n) = exp 1 ^ n).
      { induction n as [|n IH]; [simpl; apply exp_0|]. rewrite S_INR, exp_plus, IH. simpl. ring. }
      assert (E17 : INR 17 = 17) by (rewrite INR_IZR_INZ; reflexivity). rewrite <- E17, G. apply Rle_trans with (2 ^ 17); [simpl; lra|].
      apply pow_incr. split; [lra|]. pose proof (exp_ineq1 1 ltac:(lra)). lra. }
    destruct L as [L|L]; [left; apply ln_increasing; lra|rewrite L; lra]. }
  assert (T2 : -1 <= t).
  { unfold t. rewrite <- (ln_exp (-1)). assert (L : exp (-1) <= B2R x).
    { apply Rle_trans with (/ 2); [|lra]. replace (-1) with (- (1)) by ring. rewrite exp_Ropp. apply Rinv_le; [lra|]. pose proof (exp_ineq1 1 ltac:(lra)). lra. }
    pose proof (exp_pos (-1)). destruct L as [L|L]; [left; apply ln_increasing; lra|rewrite L; lra]. }
  assert (TB : Rabs t <= 17) by (apply Rabs_le; lra).
  destruct (@error_N_FLT radix2 (SpecFloat.emin 24 128) 24 eq_refl (fun x => negb (Z.even x)) t) as (eps & eta & E1 & E2 & _ & E).
  change (round radix2 (FLT_exp (SpecFloat.emin 24 128) 24) (Znearest (fun x => negb (Z.even x))) t) with (rn32 t) in E.
  assert (E1' : (Rabs eps <= u24)%R) by (change (bpow radix2 (Z.opp 24 + 1)) with (/ 8388608)%R in E1; lra).
  assert (E2' : (Rabs eta <= u24)%R).
  { eapply Rle_trans; [exact E2|]. assert (bpow radix2 (SpecFloat.emin 24 128) <= u24) by (change u24 with (bpow radix2 (-24)); apply bpow_le; vm_compute; discriminate).
    pose proof (bpow_ge_0 radix2 (SpecFloat.emin 24 128)). lra. }
  assert (D : Rabs (rn32 t - t) <= 18 * u24).
  { rewrite E. replace (t * (1 + eps) + eta - t) with (t * eps + eta) by ring. eapply Rle_trans; [apply Rabs_triang|]. rewrite Rabs_mult.
    assert (Rabs t * Rabs eps <= 17 * u24) by (apply Rmult_le_compat; auto using Rabs_pos). lra. }
  destruct (f_of_R_correct t) as [C1 _]. destruct C1 as [V FF].
  - assert (Rabs (rn32 t) <= 18). { replace (rn32 t) with ((rn32 t - t) + t) by ring. eapply Rle_trans; [apply Rabs_triang|]. lra. }
    assert (bpow radix2 5 < bpow radix2 128) by (apply bpow_lt; lia). change (bpow radix2 5) with 32 in *. lra.
  - split; [exact FF|]. rewrite V. exact D.
Qed.
