(** Error of printing with k decimals and reading again, for any format. *)
From Coq Require Import ZArith List Bool Lia Reals Lra.
From Flocq Require Import Core BinarySingleNaN.
From Flocq.Prop Require Import Relative.
From Verif.Base Require Import Res Float FloatOrder.
From Verif.Model Require Import TreesC.
From Verif.Spec Require Import HarnessSpec.
From Verif.Proof Require Import Harness.
Open Scope Z_scope.

Lemma through_close_gen {prec emax} {Hp : Prec_gt_0 prec} {Hm : Prec_lt_emax prec emax} k (v : R) (w : binary_float prec emax) :
  0 <= k -> 2 <= emax -> SpecFloat.emin prec emax <= -60 -> (Rabs v <= bpow radix2 (emax - 2))%R -> through_decimals k v w ->
  is_finite w = true /\ (Rabs (B2R w - v) <= / IZR (10 ^ k) / 2 + (Rabs v + / IZR (10 ^ k) / 2) * bpow radix2 (- prec) + bpow radix2 (-60))%R.
Proof.
  intros Hk He Hmin L (d & D & N & K).
  assert (P10 : 1 <= 10 ^ k) by (assert (0 < 10 ^ k) by (apply Z.pow_pos_nonneg; lia); lia).
  apply IZR_le in P10. set (T := IZR (10 ^ k)) in *. assert (PT : (0 < T)%R) by lra.
  set (x := (IZR d / T)%R) in *.
  assert (IT : (0 < / T <= 1)%R) by (split; [now apply Rinv_0_lt_compat|]; rewrite <- Rinv_1; apply Rinv_le; lra).
  assert (X : (Rabs (x - v) <= / T / 2)%R).
  { replace (x - v)%R with (- (v * T - IZR d) * / T)%R by (unfold x; field; lra).
    rewrite Rabs_mult, Rabs_Ropp, (Rabs_pos_eq (/ T)) by lra. pose proof (Rmult_le_compat_r (/ T) _ _ ltac:(lra) D). lra. }
  destruct (@error_N_FLT radix2 (SpecFloat.emin prec emax) prec Hp (fun x => negb (Z.even x)) x) as (eps & eta & E1 & E2 & _ & E).
  change (round radix2 (FLT_exp (SpecFloat.emin prec emax) prec) (Znearest (fun x => negb (Z.even x))) x)
    with (round radix2 (SpecFloat.fexp prec emax) ZnearestE x) in E.
  assert (Hs : (bpow radix2 (SpecFloat.emin prec emax) <= bpow radix2 (-60))%R) by (now apply bpow_le).
  assert (E1' : (Rabs eps <= bpow radix2 (- prec))%R).
  { eapply Rle_trans; [exact E1|]. rewrite bpow_plus. change (bpow radix2 1) with 2%R. lra. }
  set (r := round radix2 (SpecFloat.fexp prec emax) ZnearestE x) in *.
  assert (XB : (Rabs x <= Rabs v + / T / 2)%R).
  { replace x with (x - v + v)%R by ring. eapply Rle_trans; [apply Rabs_triang|]. lra. }
  assert (TE : (Rabs (x * eps) <= (Rabs v + / T / 2) * bpow radix2 (- prec))%R).
  { rewrite Rabs_mult. apply Rmult_le_compat; try apply Rabs_pos; lra. }
  pose proof (bpow_gt_0 radix2 (-60)) as P60.
  assert (DV : (Rabs (r - v) <= / T / 2 + (Rabs v + / T / 2) * bpow radix2 (- prec) + bpow radix2 (-60))%R).
  { rewrite E. replace (x * (1 + eps) + eta - v)%R with ((x - v) + (x * eps + eta))%R by ring.
    eapply Rle_trans; [apply Rabs_triang|]. pose proof (Rabs_triang (x * eps) eta). lra. }
  assert (LR : (Rabs r < bpow radix2 emax)%R).
  { replace r with (r - v + v)%R by ring. eapply Rle_lt_trans; [apply Rabs_triang|].
    assert (bpow radix2 emax = 4 * bpow radix2 (emax - 2))%R as -> by (change 4%R with (bpow radix2 2); rewrite <- bpow_plus; f_equal; lia).
    assert (1 <= bpow radix2 (emax - 2))%R by (change 1%R with (bpow radix2 0); apply bpow_le; lia).
    assert (bpow radix2 (- prec) <= / 2)%R.
    { change (/ 2)%R with (bpow radix2 (-1)). apply bpow_le. unfold Prec_gt_0 in Hp. lia. }
    assert (bpow radix2 (-60) <= / 4)%R by (change (/ 4)%R with (bpow radix2 (-2)); apply bpow_le; lia).
    pose proof (Rabs_pos v). pose proof (bpow_gt_0 radix2 (- prec)).
    assert ((Rabs v + / T / 2) * bpow radix2 (- prec) <= (Rabs v + / T / 2) * / 2)%R by (apply Rmult_le_compat_l; lra). lra. }
  rewrite clampR_in in K by lra. destruct (key_fin_eq w r N LR K) as [F V]. split; [exact F|]. rewrite V. exact DV.
Qed.
Lemma through6_f64 (v : R) (w : f64) : (Rabs v <= bpow radix2 1022)%R -> through_decimals 6 v w ->
  is_finite w = true /\ (Rabs (B2R w - v) <= 500001 / 1000000000000 + Rabs v * bpow radix2 (-53))%R.
Proof.
  intros L T. destruct (through_close_gen 6 v w ltac:(lia) ltac:(lia) ltac:(vm_compute; discriminate) L T) as [F E]. split; [exact F|].
  eapply Rle_trans; [exact E|]. change (IZR (10 ^ 6)) with 1000000%R. change (- (53)) with (-53).
  assert (bpow radix2 (-53) <= / 4096)%R by (change (/ 4096)%R with (bpow radix2 (-12)); apply bpow_le; lia).
  assert (bpow radix2 (-53) <= / 1099511627776)%R by (change (/ 1099511627776)%R with (bpow radix2 (-40)); apply bpow_le; lia).
  assert (bpow radix2 (-60) <= / 1099511627776)%R by (change (/ 1099511627776)%R with (bpow radix2 (-40)); apply bpow_le; lia).
  assert (P : (0 < bpow radix2 (-53))%R) by apply bpow_gt_0. lra.
Qed.
Lemma through6_f32 (v : R) (w : f32) : (Rabs v <= bpow radix2 126)%R -> through_decimals 6 v w ->
  is_finite w = true /\ (Rabs (B2R w - v) <= 500001 / 1000000000000 + Rabs v / 16777216)%R.
Proof.
  intros L T. destruct (through_close_gen 6 v w ltac:(lia) ltac:(lia) ltac:(vm_compute; discriminate) L T) as [F E]. split; [exact F|].
  eapply Rle_trans; [exact E|]. change (IZR (10 ^ 6)) with 1000000%R. change (- (24)) with (-24).
  change (bpow radix2 (-24)) with (/ 16777216)%R.
  assert (bpow radix2 (-60) <= / 1099511627776)%R by (change (/ 1099511627776)%R with (bpow radix2 (-40)); apply bpow_le; lia).
  pose proof (Rabs_pos v). lra.
Qed.
