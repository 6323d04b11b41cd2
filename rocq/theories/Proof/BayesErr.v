(** How close the fixed-point scores of Naive Bayes are to the logarithm of the normal density. *)
From Coq Require Import ZArith List Bool Lia Reals Lra Psatz.
From Flocq Require Import Core BinarySingleNaN.
From Verif.Base Require Import Res CInt ListX Loops Float RealSum.
From Verif.Model Require Import Common FixedPoint Bayes BayesRun.
From Verif.Spec Require Import BayesSpec NetRunSpec BayesRunSpec.
From Verif.Proof Require Import FixedPoint Bayes Log2 NormalConst.
Import ListNotations.
Open Scope Z_scope.

(** 1 / (2 ln 2) and log2 (sqrt (2 pi)) *)
Definition kk : R := (/ (2 * ln 2))%R.
Definition cc : R := (ln (2 * PI) * kk)%R.
Lemma kk_bounds : (72124 / 100000 <= kk <= 7216 / 10000)%R.
Proof.
  pose proof ln2_bounds as [L U]. unfold kk. split.
  - apply Rmult_le_reg_r with (2 * ln 2)%R; [lra|]. rewrite Rinv_l by lra. lra.
  - apply Rmult_le_reg_r with (2 * ln 2)%R; [lra|]. rewrite Rinv_l by lra. lra.
Qed.
Lemma cc_bounds : (13241 / 10000 <= cc <= 13271 / 10000)%R.
Proof. pose proof kk_bounds. pose proof ln2pi_bounds. unfold cc. split; nra. Qed.

Lemma log_density_eq x m s : (0 < s)%R -> log_density x m s = (- kk * ((x - m) / s) ^ 2 - cc - log2R s)%R.
Proof.
  intros Hs. unfold log_density, normal_density, log2R.
  pose proof ln2_pos as P2. pose proof PI_bounds as PB. assert (P0 : (0 < 2 * PI)%R) by lra. assert (PS : (0 < sqrt (2 * PI))%R) by (apply sqrt_lt_R0; exact P0).
  unfold Rdiv at 2. rewrite ln_mult; [|apply exp_pos|apply Rinv_0_lt_compat; apply Rmult_lt_0_compat; assumption].
  rewrite ln_exp, ln_Rinv by (apply Rmult_lt_0_compat; assumption). rewrite ln_mult by assumption.
  assert (LS : (ln (sqrt (2 * PI)) = ln (2 * PI) / 2)%R).
  { assert (E : (ln (2 * PI) = ln (sqrt (2 * PI)) + ln (sqrt (2 * PI)))%R) by (rewrite <- ln_mult by assumption; rewrite sqrt_sqrt by lra; reflexivity). lra. }
  rewrite LS. unfold cc, kk. field. split; lra.
Qed.

(** The deviation in Q16.16 is within 2^-17 of the real quotient. *)
Lemma deviation_real value mean std : 1 <= std ->
  (Rabs (IZR (deviation value mean std) / 65536 - Rabs (IZR value - IZR mean) / IZR std) <= / 131072)%R.
Proof.
  intros Hs. unfold deviation. set (n := Z.abs (value - mean) * 65536 + std / 2).
  pose proof (Z.div_mod n std ltac:(lia)) as DM. pose proof (Z.mod_pos_bound n std ltac:(lia)) as MB.
  set (d := n / std) in *. set (r := n mod std) in *.
  assert (B : 2 * Z.abs (d * std - Z.abs (value - mean) * 65536) <= std).
  { pose proof (Z.div_mod std 2 ltac:(lia)). pose proof (Z.mod_pos_bound std 2 ltac:(lia)). unfold n in DM. lia. }
  assert (P : (0 < IZR std)%R) by (apply IZR_lt; lia).
  rewrite <- minus_IZR, <- abs_IZR. apply IZR_le in B. rewrite mult_IZR, abs_IZR, minus_IZR, !mult_IZR in B.
  set (D := IZR d) in *. set (A := IZR (Z.abs (value - mean))) in *. set (S := IZR std) in *.
  replace (D / 65536 - A / S)%R with ((D * S - A * 65536) * / (65536 * S))%R by (field; lra).
  rewrite Rabs_mult, (Rabs_pos_eq (/ (65536 * S))) by (left; apply Rinv_0_lt_compat; lra).
  apply Rmult_le_reg_r with (65536 * S)%R; [lra|]. rewrite Rmult_assoc, Rinv_l by lra. lra.
Qed.

(** The square in units of 2^-16, both factors cut to 8 fraction bits. *)
Lemma square_real d : 0 <= d -> let X := (IZR d / 65536)%R in let t := (IZR ((d / 256) * (d / 256) / 256) / 256)%R in
  (X ^ 2 - X / 128 - / 256 <= t <= X ^ 2 /\ 0 <= t)%R.
Proof.
  intros Hd X t. pose proof (Z.div_mod d 256 ltac:(lia)) as DM. pose proof (Z.mod_pos_bound d 256 ltac:(lia)) as MB.
  assert (Q0 : 0 <= d / 256) by (apply Z.div_pos; lia). set (q := d / 256) in *.
  pose proof (Z.div_mod (q * q) 256 ltac:(lia)) as DM2. pose proof (Z.mod_pos_bound (q * q) 256 ltac:(lia)) as MB2.
  assert (T0 : 0 <= q * q / 256) by (apply Z.div_pos; nia). set (w := q * q / 256) in *.
  assert (L1 : 256 * q <= d <= 256 * q + 255) by lia. assert (L2 : 256 * w <= q * q <= 256 * w + 255) by lia.
  clear DM DM2 MB MB2.
  destruct L1 as [A1 A2], L2 as [B1 B2]. apply IZR_le in A1, A2, B1, B2, Q0, T0, Hd. rewrite mult_IZR in A1, B1. rewrite plus_IZR, mult_IZR in A2. rewrite mult_IZR in B1. rewrite plus_IZR, !mult_IZR in B2.
  unfold X, t. set (D := IZR d) in *. set (Q := IZR q) in *. set (W := IZR w) in *. clearbody D Q W.
  assert (E : (D / 65536 = D / 256 / 256)%R) by lra.
  set (Y := (D / 256)%R) in *. assert (Y1 : (Q <= Y <= Q + 255 / 256)%R) by (unfold Y; lra). assert (Y0 : (0 <= Y)%R) by lra.
  rewrite E. replace ((Y / 256) ^ 2)%R with (Y * Y / 65536)%R by field. clearbody Y. clear E A1 A2.
  assert (QQ : (Q * Q <= Y * Y)%R) by nra. assert (Q2 : (Y * Y - 2 * Y <= Q * Q)%R) by nra.
  split; [|lra]. split; lra.
Qed.

Lemma score_real v s : 1 <= s_std s ->
  let z := (Rabs (IZR v - IZR (s_mean s)) / IZR (s_std s))%R in
  (Rabs (IZR (feature_score v s) / 65536 - (- kk * z ^ 2 - cc - IZR (s_stdlog2 s) / 65536)) <= (z + 2) ^ 2 / 700)%R /\
  (Rabs (IZR (feature_score v s) / 65536) <= 3 / 4 * z ^ 2 + 3 / 2 + Rabs (IZR (s_stdlog2 s) / 65536))%R.
Proof.
  intros Hs z. pose proof (deviation_real v (s_mean s) (s_std s) Hs) as DR. fold z in DR.
  pose proof (deviation_nonneg v (s_mean s) (s_std s) Hs) as D0. pose proof (square_real _ D0) as SQ. cbv zeta in SQ.
  unfold feature_score. cbv zeta. set (d := deviation v (s_mean s) (s_std s)) in *.
  set (w := (d / 256) * (d / 256) / 256) in *. rewrite !minus_IZR, mult_IZR.
  assert (X0 : (0 <= IZR d / 65536)%R) by (apply IZR_le in D0; lra).
  assert (Z0 : (0 <= z)%R).
  { unfold z. apply Rmult_le_pos; [apply Rabs_pos|]. left. apply Rinv_0_lt_compat. apply IZR_lt. lia. }
  set (X := (IZR d / 65536)%R) in *. set (t := (IZR w / 256)%R) in *.
  replace (IZR w) with (256 * t)%R by (unfold t; field). set (L := IZR (s_stdlog2 s)).
  clearbody X t L z. clear d w D0 v s Hs.
  pose proof kk_bounds as KB. pose proof cc_bounds as CB. set (k := kk) in *. set (c := cc) in *. clearbody k c.
  apply Rabs_le_inv in DR. destruct SQ as ((S1 & S2) & S3).
  assert (H1 : (X ^ 2 <= z ^ 2 + z / 32768 + / 16384)%R) by nra.
  assert (H2 : (z ^ 2 - z / 32768 - / 16384 <= X ^ 2)%R) by nra.
  assert (Z2 : (0 <= z ^ 2)%R) by nra.
  split.
  - apply Rabs_le. 
    assert (E : ((-185 * (256 * t) - 86884 - L) / 65536 = - (185 / 256) * t - 86884 / 65536 - L / 65536)%R) by field. rewrite E.
    assert (KZ : (72124 / 100000 * z ^ 2 <= k * z ^ 2 <= 7216 / 10000 * z ^ 2)%R) by (split; apply Rmult_le_compat_r; lra).
    set (kz := (k * z ^ 2)%R) in *. replace (- k * z ^ 2)%R with (- kz)%R by (unfold kz; ring). replace ((z + 2) ^ 2 / 700)%R with (z ^ 2 / 700 + z / 175 + / 175)%R by field.
    set (zz := (z ^ 2)%R) in *. set (xx := (X ^ 2)%R) in *. clearbody kz zz xx.
    assert (KZ1 := proj1 KZ). assert (KZ2 := proj2 KZ). assert (XZ : (X <= z + / 131072)%R) by lra. clear E KZ DR. split; lra.
  - replace ((-185 * (256 * t) - 86884 - L) / 65536)%R with (- (185 / 256 * t + 86884 / 65536) - L / 65536)%R by field.
    eapply Rle_trans; [apply Rabs_triang|]. rewrite !Rabs_Ropp. apply Rplus_le_compat_r. rewrite Rabs_pos_eq by lra. nra.
Qed.
