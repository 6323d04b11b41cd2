(** Proofs about the fixed-point logarithm of eml_bayes.h. *)
From Coq Require Import ZArith List Bool Lia Reals Lra.
From Flocq Require Import Core BinarySingleNaN.
From Verif.Base Require Import Res CInt Loops Float.
From Verif.Model Require Import Bayes.
From Verif.Spec Require Import BayesSpec.
Import ListNotations.
Open Scope Z_scope.
Open Scope res_scope.


Section Log.
Open Scope R_scope.
Lemma pow_le_exp a b n : 0 <= a -> a <= exp b -> a ^ n <= exp (INR n * b).
Proof.
  intros Ha Hb. induction n as [|n IH].
  - simpl. rewrite Rmult_0_l, exp_0. lra.
  - rewrite S_INR. replace ((INR n + 1) * b) with (b + INR n * b) by ring. rewrite exp_plus. simpl.
    apply Rmult_le_compat; auto. now apply pow_le.
Qed.
Lemma ln2_lb : 2 / 3 < ln 2.
Proof.
  apply exp_lt_inv. rewrite exp_ln by lra.
  assert (H : 23 / 24 <= exp (- (1 / 24))).
  { pose proof (exp_ineq1_le (- (1 / 24))). lra. }
  pose proof (pow_le_exp (23 / 24) (- (1 / 24)) 16 ltac:(lra) H) as P. simpl INR in P.
  replace ((1+1+1+1+1+1+1+1+1+1+1+1+1+1+1+1) * - (1/24)) with (- (2 / 3)) in P by lra.
  rewrite exp_Ropp in P.
  assert (Q : / 2 < (23 / 24) ^ 16) by (simpl; lra).
  assert (E : / 2 < / exp (2 / 3)) by lra.
  pose proof (exp_pos (2 / 3)).
  destruct (Rlt_or_le (exp (2 / 3)) 2) as [|G]; auto. apply Rinv_le in G; lra.
Qed.
Lemma ln2_pos : 0 < ln 2. Proof. pose proof ln2_lb. lra. Qed.

Lemma log2_mult a b : 0 < a -> 0 < b -> log2R (a * b) = log2R a + log2R b.
Proof. intros. unfold log2R. rewrite ln_mult by auto. pose proof ln2_pos. field. lra. Qed.
Lemma log2_le a b : 0 < a -> a <= b -> log2R a <= log2R b.
Proof.
  intros Ha Hb. unfold log2R. apply Rmult_le_compat_r; [left; apply Rinv_0_lt_compat, ln2_pos|].
  destruct Hb as [Hb| ->]; [left; now apply ln_increasing|lra].
Qed.
Lemma log2_lt a b : 0 < a -> a < b -> log2R a < log2R b.
Proof.
  intros Ha Hb. unfold log2R. apply Rmult_lt_compat_r; [apply Rinv_0_lt_compat, ln2_pos|]. now apply ln_increasing.
Qed.
Lemma log2_1 : log2R 1 = 0. Proof. unfold log2R. rewrite ln_1. unfold Rdiv. ring. Qed.
Lemma log2_2 : log2R 2 = 1. Proof. unfold log2R. pose proof ln2_pos. field. lra. Qed.
Lemma log2_half a : 0 < a -> log2R (a / 2) = log2R a - 1.
Proof.
  intros Ha. assert (H : log2R a = log2R (a / 2 * 2)) by (f_equal; lra).
  rewrite log2_mult, log2_2 in H by lra. lra.
Qed.
(** One unit in the last place moves the logarithm by at most 1 / (ln 2 * 2^p). *)
Lemma log2_gap z P : 0 < P -> P <= z -> log2R ((z + 1) / P) <= log2R (z / P) + / (P * ln 2).
Proof.
  intros HP Hz. assert (z <> 0) by lra. pose proof ln2_pos as L.
  replace ((z + 1) / P) with (z / P * (1 + / z)) by (field; lra).
  assert (0 < / z) by (apply Rinv_0_lt_compat; lra).
  assert (/ z <= / P) by (apply Rinv_le; lra).
  rewrite log2_mult; [|apply Rdiv_lt_0_compat; lra|lra].
  apply Rplus_le_compat_l. unfold log2R.
  replace (/ (P * ln 2)) with (/ P / ln 2) by (field; lra).
  apply Rmult_le_compat_r; [left; now apply Rinv_0_lt_compat|].
  apply Rle_trans with (/ z); [|auto].
  assert (exp (ln (1 + / z)) <= exp (/ z)).
  { rewrite exp_ln by lra. pose proof (exp_ineq1_le (/ z)). lra. }
  destruct (Rle_or_lt (ln (1 + / z)) (/ z)) as [|G]; auto. apply exp_increasing in G. lra.
Qed.
End Log.

(** log2 of a fixed-point number with p fractional bits *)
Definition L (p z : Z) : R := log2R (IZR z / IZR (2 ^ p)).

Lemma L_floor p z n d : 0 <= p -> 0 < d -> 2 ^ p <= z -> z = n / d ->
  (L p z <= log2R (IZR n / IZR d / IZR (2 ^ p)) < L p z + / (IZR (2 ^ p) * ln 2))%R.
Proof.
  intros Hp Hd Hz E. assert (P : 0 < 2 ^ p) by (apply Z.pow_pos_nonneg; lia).
  pose proof (Z.div_mod n d ltac:(lia)) as D. pose proof (Z.mod_pos_bound n d Hd) as B. rewrite <- E in D.
  assert (Pr : (0 < IZR (2 ^ p))%R) by (apply IZR_lt; lia).
  assert (dr : (0 < IZR d)%R) by (apply IZR_lt; lia).
  assert (zr : (IZR (2 ^ p) <= IZR z)%R) by (apply IZR_le; lia).
  assert (Q1 : (IZR z <= IZR n / IZR d)%R).
  { apply Rmult_le_reg_r with (IZR d); auto. unfold Rdiv. rewrite Rmult_assoc, Rinv_l, Rmult_1_r by lra. rewrite <- mult_IZR. apply IZR_le. lia. }
  assert (Q2 : (IZR n / IZR d < IZR z + 1)%R).
  { apply Rmult_lt_reg_r with (IZR d); auto. unfold Rdiv. rewrite Rmult_assoc, Rinv_l, Rmult_1_r by lra. rewrite <- plus_IZR, <- mult_IZR. apply IZR_lt. lia. }
  assert (Ip : (0 < / IZR (2 ^ p))%R) by now apply Rinv_0_lt_compat.
  split.
  - apply log2_le; [apply Rdiv_lt_0_compat; lra|]. now apply Rmult_le_compat_r; [lra|].
  - eapply Rlt_le_trans; [|apply log2_gap; auto].
    apply log2_lt; [|apply Rmult_lt_compat_r; lra]. apply Rdiv_lt_0_compat; lra.
Qed.

(** ** The two scaling loops *)

Lemma to_int32_eqm a b : a mod 2 ^ 32 = b mod 2 ^ 32 -> to_int32 a = to_int32 b.
Proof. unfold to_int32, to_signed. intros ->. reflexivity. Qed.
Lemma to_int32_mod a : to_int32 a mod 2 ^ 32 = a mod 2 ^ 32.
Proof.
  unfold to_int32, to_signed. cbv zeta. destruct (_ <? _); [apply Z.mod_mod; lia|].
  replace (a mod 2 ^ 32 - 2 ^ 32) with (a mod 2 ^ 32 + (-1) * 2 ^ 32) by ring. rewrite Z.mod_add by lia. apply Z.mod_mod. lia.
Qed.
Lemma y_sub_wrap Y k : y_sub (to_int32 Y) k = to_int32 (Y - k).
Proof.
  unfold y_sub, to_uint32, to_unsigned. apply to_int32_eqm. rewrite to_int32_mod.
  rewrite Z.mod_mod by lia. rewrite Zminus_mod_idemp_l. reflexivity.
Qed.
Lemma y_add_wrap Y k : y_add (to_int32 Y) k = to_int32 (Y + k).
Proof.
  unfold y_add, to_uint32, to_unsigned. apply to_int32_eqm. rewrite to_int32_mod.
  rewrite Z.mod_mod by lia. rewrite Zplus_mod_idemp_l. reflexivity.
Qed.

Lemma log2_up_ok p j : forall fuel x Y, 1 <= p <= 30 -> 1 <= x < 2 ^ 32 -> 2 ^ p <= x * 2 ^ Z.of_nat j -> (j < fuel)%nat ->
  exists x' k, log2_up fuel (2 ^ p) x (to_int32 Y) = Ret (x', to_int32 (Y - k * 2 ^ p)) /\
    0 <= k /\ x' = x * 2 ^ k /\ 2 ^ p <= x' < 2 ^ 32.
Proof.
  induction j as [|j IH]; intros [|fuel] x Y Hp Hx Hj Hf; try lia; simpl log2_up.
  - simpl in Hj. destruct (Z.ltb_spec x (2 ^ p)); [lia|].
    exists x, 0. rewrite Z.mul_0_l, Z.sub_0_r, Z.mul_1_r. split; [auto|]. lia.
  - destruct (Z.ltb_spec x (2 ^ p)) as [Lx|Lx].
    + assert (B : 2 ^ p <= 2 ^ 30) by (apply Z.pow_le_mono_r; lia).
      change (2 ^ 30) with 1073741824 in B. change (2 ^ 32) with 4294967296 in *.
      assert (W : to_uint32 (x * 2) = x * 2).
      { unfold to_uint32, to_unsigned. apply Z.mod_small. change (2 ^ 32) with 4294967296. lia. }
      rewrite W, y_sub_wrap.
      destruct (IH fuel (x * 2) (Y - 2 ^ p)) as (x' & k & E & K & X & R); try lia.
      { rewrite Nat2Z.inj_succ, Z.pow_succ_r in Hj by lia. lia. }
      exists x', (k + 1). rewrite E. repeat split; try lia.
      * f_equal. f_equal. f_equal. lia.
      * rewrite X, Z.pow_add_r by lia. lia.
    + exists x, 0. rewrite Z.mul_0_l, Z.sub_0_r. change (2 ^ 0) with 1. rewrite Z.mul_1_r. split; [auto|]. lia.
Qed.

Lemma log2_down_ok p j : forall fuel x Y, 1 <= p <= 30 -> 2 ^ p <= x -> x < 2 ^ (p + 1 + Z.of_nat j) -> (j < fuel)%nat ->
  exists x' k, log2_down fuel (2 ^ p) (2 ^ (p + 1)) x (to_int32 Y) = Ret (x', to_int32 (Y + k * 2 ^ p)) /\
    0 <= k /\ x' = x / 2 ^ k /\ 2 ^ p <= x' < 2 ^ (p + 1).
Proof.
  induction j as [|j IH]; intros [|fuel] x Y Hp Hx Hj Hf; try lia; simpl log2_down.
  - rewrite Z.add_0_r in Hj. destruct (Z.leb_spec (2 ^ (p + 1)) x); [lia|].
    exists x, 0. rewrite Z.mul_0_l, Z.add_0_r, Z.div_1_r. split; [auto|]. lia.
  - destruct (Z.leb_spec (2 ^ (p + 1)) x) as [Lx|Lx].
    + rewrite y_add_wrap. rewrite Z.shiftr_div_pow2 by lia. change (2 ^ 1) with 2.
      assert (P : 2 ^ (p + 1) = 2 ^ p * 2) by (rewrite Z.pow_add_r; lia).
      destruct (IH fuel (x / 2) (Y + 2 ^ p)) as (x' & k & E & K & X & R); try lia.
      { apply Z.div_le_lower_bound; lia. }
      { apply Z.div_lt_upper_bound; [lia|]. replace (p + 1 + Z.of_nat (S j)) with (Z.succ (p + 1 + Z.of_nat j)) in Hj by lia.
        rewrite Z.pow_succ_r in Hj by lia. lia. }
      exists x', (k + 1). rewrite E. repeat split; try lia.
      * f_equal. f_equal. f_equal. lia.
      * rewrite X, Z.div_div by lia. f_equal. rewrite Z.pow_add_r by lia. lia.
    + exists x, 0. rewrite Z.mul_0_l, Z.add_0_r. change (2 ^ 0) with 1. rewrite Z.div_1_r. split; [auto|]. lia.
Qed.

(** ** The bit loop *)
Lemma IZR_pow2 n : 0 <= n -> IZR (2 ^ n) = (2 ^ Z.to_nat n)%R.
Proof. intros. rewrite <- (Z2Nat.id n) at 1 by auto. symmetry. apply pow_IZR. Qed.
Lemma pow2_pos n : 0 <= n -> 0 < 2 ^ n. Proof. intros. apply Z.pow_pos_nonneg; lia. Qed.

Lemma log2_loop p u z0 : 1 <= p <= 30 -> 2 ^ p <= z0 < 2 ^ (p + 1) -> -2147483648 <= u -> u + 2 ^ p <= 2147483648 ->
  exists z y b, foldM (log2_step p (2 ^ (p + 1))) (z0, u, 2 ^ (p - 1)) (zrange p) = Ret (z, y, b) /\
    u <= y < u + 2 ^ p /\
    (IZR (y - u) <= IZR (2 ^ p) * L p z0 < IZR (y - u) + 1 + / ln 2)%R.
Proof.
  intros Hp Hz Hu1 Hu2.
  set (P := 2 ^ p) in *.
  assert (PP : 0 < P) by (apply pow2_pos; lia).
  assert (P2 : 2 ^ (p + 1) = 2 * P) by (unfold P; rewrite Z.pow_add_r; lia).
  assert (Pb : P <= 2 ^ 30) by (apply Z.pow_le_mono_r; lia).
  change (2 ^ 30) with 1073741824 in Pb.
  assert (PR : (0 < IZR P)%R) by (apply IZR_lt; auto).
  pose proof ln2_pos as L2.
  pose (I := fun i (st : Z * Z * Z) => let '(z, y, b) := st in
     P <= z < 2 * P /\ b = 2 ^ (p - i) / 2 /\ 0 <= y - u <= P - 2 ^ (p - i) /\
     (IZR (y - u) + IZR P * (L p z / IZR (2 ^ i)) <= IZR P * L p z0 <
      IZR (y - u) + IZR P * (L p z / IZR (2 ^ i)) + (1 - / IZR (2 ^ i)) / ln 2 + / IZR P)%R).
  destruct (foldM_range_inv (log2_step p (2 ^ (p + 1))) I p (z0, u, 2 ^ (p - 1))) as ([[z y] b] & F & H).
  - lia.
  - unfold I. rewrite P2 in Hz. change (2 ^ 0) with 1. rewrite Z.sub_0_r, Z.sub_diag. repeat split; try lia.
    + rewrite Z.pow_sub_r by lia. reflexivity.
    + unfold Rdiv. rewrite Rinv_1. lra.
    + unfold Rdiv. rewrite Rinv_1. assert (0 < / IZR P)%R by now apply Rinv_0_lt_compat. unfold Rdiv. lra.
  - intros i [[z y] b] Hi (Z1 & Hb & Hy & HL1 & HL2). unfold log2_step.
    assert (Pi : 0 < 2 ^ i) by (apply pow2_pos; lia).
    assert (PiR : (0 < IZR (2 ^ i))%R) by (apply IZR_lt; auto).
    assert (Si : 2 ^ (i + 1) = 2 ^ i * 2) by (rewrite Z.pow_add_r; lia).
    assert (Pj : 0 < 2 ^ (p - (i + 1))) by (apply pow2_pos; lia).
    assert (Sj : 2 ^ (p - i) = 2 ^ (p - (i + 1)) * 2) by (replace (p - i) with (p - (i + 1) + 1) by lia; rewrite Z.pow_add_r; lia).
    assert (Hbb : b = 2 ^ (p - (i + 1))) by (rewrite Hb, Sj; apply Z.div_mul; lia).
    assert (Ej : 2 ^ (p - (i + 1)) * 2 ^ (i + 1) = P) by (unfold P; rewrite <- Z.pow_add_r by lia; f_equal; lia).
    assert (W : to_uint64 (z * z) = z * z).
    { unfold to_uint64, to_unsigned. apply Z.mod_small. change (2 ^ 64) with 18446744073709551616. nia. }
    rewrite W, !Z.shiftr_div_pow2 by lia. fold P. change (2 ^ 1) with 2. cbv zeta. rewrite P2.
    assert (Q1 : P <= z * z / P) by (apply Z.div_le_lower_bound; [lia|]; apply Z.mul_le_mono_nonneg; lia).
    assert (zR : (0 < IZR z)%R) by (apply IZR_lt; lia).
    assert (LL : log2R (IZR (z * z) / IZR P / IZR P) = (2 * L p z)%R).
    { unfold L. fold P. replace (IZR (z * z) / IZR P / IZR P)%R with (IZR z / IZR P * (IZR z / IZR P))%R by (rewrite mult_IZR; field; lra).
      rewrite log2_mult by (apply Rdiv_lt_0_compat; lra). ring. }
    (* scaled form of the invariant *)
    assert (ERR : forall e bit (d : R), (L p e <= 2 * L p z - bit < L p e + / (IZR P * ln 2))%R ->
      (IZR (y - u) + IZR P * bit / IZR (2 ^ (i + 1)) + IZR P * (L p e / IZR (2 ^ (i + 1))) <= IZR P * L p z0 <
      IZR (y - u) + IZR P * bit / IZR (2 ^ (i + 1)) + IZR P * (L p e / IZR (2 ^ (i + 1))) + (1 - / IZR (2 ^ (i + 1))) / ln 2 + / IZR P)%R).
    { intros e bit _ [B1 B2]. rewrite Si, mult_IZR.
      set (q := IZR (2 ^ i)) in *. set (Pz := IZR P) in *.
      assert (K : (0 < Pz / (q * 2))%R) by (apply Rdiv_lt_0_compat; lra).
      apply (Rmult_le_compat_l (Pz / (q * 2))) in B1; [|lra].
      apply (Rmult_lt_compat_l (Pz / (q * 2))) in B2; [|lra].
      assert (E1 : (Pz / (q * 2) * (2 * L p z - bit) = Pz * (L p z / q) - Pz * bit / (q * 2))%R) by (field; lra).
      assert (E2 : (Pz / (q * 2) * (L p e + / (Pz * ln 2)) = Pz * (L p e / (q * 2)) + / (q * 2) / ln 2)%R) by (field; lra).
      assert (E3 : (Pz / (q * 2) * L p e = Pz * (L p e / (q * 2)))%R) by (field; lra).
      assert (E4 : ((1 - / (q * 2)) / ln 2 = (1 - / q) / ln 2 + / (q * 2) / ln 2)%R) by (field; lra).
      rewrite E1, E2 in B2. rewrite E1, E3 in B1. rewrite E4. lra. }
    destruct (Z.leb_spec (2 * P) (z * z / P)) as [G|G].
    + rewrite chk_int32_ok by (unfold int32_ok; lia). cbn [bind].
      eexists. split; [reflexivity|]. unfold I.
      assert (DD : z * z / P / 2 = z * z / (P * 2)) by (apply Z.div_div; lia).
      assert (RR : P <= z * z / P / 2 < 2 * P).
      { split; [apply Z.div_le_lower_bound; lia|]. rewrite DD. apply Z.div_lt_upper_bound; nia. }
      split; [exact RR|]. split; [rewrite Hbb; reflexivity|]. split; [lia|].
      replace (y + b - u) with ((y - u) + b) by lia. rewrite plus_IZR.
      replace (IZR b) with (IZR P * 1 / IZR (2 ^ (i + 1)))%R.
      2:{ rewrite Hbb, <- Ej, mult_IZR. field. apply IZR_neq. lia. }
      apply (ERR (z * z / P / 2) 1%R 0%R).
      pose proof (L_floor p (z * z / P / 2) (z * z) (P * 2) ltac:(lia) ltac:(lia) ltac:(fold P; lia) DD) as LF. fold P in LF.
      replace (IZR (z * z) / IZR (P * 2) / IZR P)%R with (IZR (z * z) / IZR P / IZR P / 2)%R in LF by (rewrite (mult_IZR P 2); field; lra).
      rewrite log2_half, LL in LF; [exact LF|]. apply Rdiv_lt_0_compat; auto. apply Rdiv_lt_0_compat; auto. apply IZR_lt; nia.
    + cbn [bind]. eexists. split; [reflexivity|]. unfold I.
      split; [lia|]. split; [rewrite Hbb; reflexivity|]. split; [lia|].
      pose proof (L_floor p (z * z / P) (z * z) P ltac:(lia) ltac:(lia) ltac:(fold P; lia) eq_refl) as LF. fold P in LF.
      rewrite LL in LF. pose proof (ERR (z * z / P) 0%R 0%R) as EE.
      replace (IZR P * 0 / IZR (2 ^ (i + 1)))%R with 0%R in EE by (unfold Rdiv; ring). rewrite Rplus_0_r in EE.
      apply EE. rewrite Rminus_0_r. exact LF.
  - exists z, y, b. split; [exact F|]. unfold I in H. destruct H as (Z1 & Hb & Hy & HL1 & HL2).
    rewrite Z.sub_diag in Hy. change (2 ^ 0) with 1 in Hy. split; [lia|]. fold P in HL1, HL2.
    assert (L0 : (0 <= L p z)%R).
    { unfold L. fold P. rewrite <- log2_1. apply log2_le; [lra|]. apply Rmult_le_reg_r with (IZR P); auto.
      unfold Rdiv. rewrite Rmult_assoc, Rinv_l, Rmult_1_l, Rmult_1_r by lra. apply IZR_le. lia. }
    assert (L1 : (L p z + / (IZR P * ln 2) <= 1 + / (IZR P * ln 2))%R).
    { apply Rplus_le_compat_r. unfold L. fold P. rewrite <- log2_2. apply log2_le; [apply Rdiv_lt_0_compat; auto; apply IZR_lt; lia|].
      apply Rmult_le_reg_r with (IZR P); auto.
      unfold Rdiv. rewrite Rmult_assoc, Rinv_l, Rmult_1_r by lra. rewrite <- mult_IZR. apply IZR_le. lia. }
    replace (IZR P * (L p z / IZR P))%R with (L p z) in * by (field; lra).
    split; [lra|]. 
    assert (K : ((1 - / IZR P) / ln 2 = / ln 2 - / IZR P * / ln 2)%R) by (unfold Rdiv; ring).
    rewrite K in HL2.
    assert (1 < / ln 2)%R.
    { assert (ln 2 < 1)%R.
      { rewrite <- (ln_exp 1) at 1. apply ln_increasing; [lra|]. pose proof (exp_ineq1 1 R1_neq_R0). lra. }
      rewrite <- Rinv_1. apply Rinv_lt_contravar; lra. }
    assert (0 < / IZR P)%R by now apply Rinv_0_lt_compat.
    assert (/ IZR P * 1 < / IZR P * / ln 2)%R by (apply Rmult_lt_compat_l; auto). lra.
Qed.

(** ** The whole function *)
Lemma div_of_pow2 u p : 1 <= p <= 30 -> int32_ok u -> u mod 2 ^ p = 0 -> u + 2 ^ p <= 2147483648.
Proof.
  intros Hp Hu M. pose proof (pow2_pos p ltac:(lia)) as P.
  pose proof (Z.div_mod u (2 ^ p) ltac:(lia)) as D. rewrite M, Z.add_0_r in D.
  assert (E : 2147483648 = 2 ^ p * 2 ^ (31 - p)) by (rewrite <- Z.pow_add_r by lia; replace (p + (31 - p)) with 31 by lia; reflexivity).
  unfold int32_ok in Hu. rewrite E in *. rewrite D.
  assert (u / 2 ^ p < 2 ^ (31 - p)) by nia. nia.
Qed.
Lemma to_int32_range x : int32_ok (to_int32 x).
Proof. pose proof (to_signed_range 32 x ltac:(lia)) as H. unfold to_int32, int32_ok, in_signed in *. simpl in H. lia. Qed.
Lemma to_int32_mult p k : 0 <= p <= 32 -> to_int32 (k * 2 ^ p) mod 2 ^ p = 0.
Proof.
  intros Hp. pose proof (pow2_pos p ltac:(lia)) as P.
  assert (E : 2 ^ 32 = 2 ^ (32 - p) * 2 ^ p) by (rewrite <- Z.pow_add_r by lia; f_equal; lia).
  apply Z.mod_divide; [lia|].
  assert (D1 : (2 ^ p | 2 ^ 32)) by (exists (2 ^ (32 - p)); exact E).
  pose proof (to_int32_mod (k * 2 ^ p)) as M.
  pose proof (Z.div_mod (to_int32 (k * 2 ^ p)) (2 ^ 32) ltac:(lia)) as D.
  pose proof (Z.div_mod (k * 2 ^ p) (2 ^ 32) ltac:(lia)) as D'.
  rewrite M in D. rewrite D. apply Z.divide_add_r; [now apply Z.divide_mul_l|].
  replace ((k * 2 ^ p) mod 2 ^ 32) with (k * 2 ^ p - 2 ^ 32 * (k * 2 ^ p / 2 ^ 32)) by lia.
  apply Z.divide_sub_r; [apply Z.divide_factor_r|now apply Z.divide_mul_l].
Qed.

Theorem log2fix_ok fuel x p : (33 <= fuel)%nat -> 1 <= p <= 30 -> 1 <= x < 2 ^ 32 ->
  exists Y, eml_bayes_log2fix fuel x p = Ret (to_int32 Y) /\
    (IZR Y <= log2R (IZR x / IZR (2 ^ p)) * IZR (2 ^ p) < IZR Y + 4)%R.
Proof.
  intros Hf Hp Hx. unfold eml_bayes_log2fix.
  assert (S1 : shl1U 1 (p - 1) = Ret (2 ^ (p - 1))).
  { unfold shl1U. destruct (Z.leb_spec 0 (p - 1)), (Z.ltb_spec (p - 1) 32); try lia. simpl.
    rewrite Z.mul_1_l. f_equal. apply Z.mod_small. split; [apply Z.pow_nonneg; lia|apply Z.pow_lt_mono_r; lia]. }
  assert (S2 : shl1U 1 p = Ret (2 ^ p)).
  { unfold shl1U. destruct (Z.leb_spec 0 p), (Z.ltb_spec p 32); try lia. simpl.
    rewrite Z.mul_1_l. f_equal. apply Z.mod_small. split; [apply Z.pow_nonneg; lia|apply Z.pow_lt_mono_r; lia]. }
  assert (S3 : shl1U 2 p = Ret (2 ^ (p + 1))).
  { unfold shl1U. destruct (Z.leb_spec 0 p), (Z.ltb_spec p 32); try lia. simpl.
    replace (2 * 2 ^ p) with (2 ^ (p + 1)) by (rewrite Z.pow_add_r; lia).
    f_equal. apply Z.mod_small. split; [apply Z.pow_nonneg; lia|apply Z.pow_lt_mono_r; lia]. }
  rewrite S1. cbn [bind]. cbv zeta.
  destruct (Z.ltb_spec p 1), (Z.ltb_spec 31 p); try lia. cbn [orb].
  destruct (Z.eqb_spec x 0); [lia|]. rewrite S2. cbn [bind].
  change 0 with (to_int32 0) at 1.
  destruct (log2_up_ok p (Z.to_nat p) fuel x 0) as (xu & k & EU & Hk & XU & RU); [lia|lia| |lia|].
  { rewrite Z2Nat.id by lia. pose proof (pow2_pos p ltac:(lia)). nia. }
  rewrite EU. cbn [bind]. rewrite S3. cbn [bind].
  destruct (log2_down_ok p 31 fuel xu (0 - k * 2 ^ p)) as (xd & j & ED & Hj & XD & RD); [lia|lia| |lia|].
  { apply Z.lt_le_trans with (2 ^ 32); [lia|]. apply Z.pow_le_mono_r; lia. }
  rewrite ED. cbn [bind].
  replace (0 - k * 2 ^ p + j * 2 ^ p) with ((j - k) * 2 ^ p) by ring.
  set (u := to_int32 ((j - k) * 2 ^ p)).
  assert (U : int32_ok u) by apply to_int32_range.
  assert (U2 : u + 2 ^ p <= 2147483648) by (apply div_of_pow2; auto; apply to_int32_mult; lia).
  assert (B : to_int32 (2 ^ (p - 1)) = 2 ^ (p - 1)).
  { apply to_int32_id. unfold int32_ok. pose proof (pow2_pos (p - 1) ltac:(lia)). assert (2 ^ (p - 1) <= 2 ^ 29) by (apply Z.pow_le_mono_r; lia).
    change (2 ^ 29) with 536870912 in *. lia. }
  rewrite B.
  destruct (log2_loop p u xd Hp RD) as (z & y & b & EL & Hy & HL1 & HL2); [unfold int32_ok in U; lia|auto|].
  rewrite EL. cbn [bind]. exists ((j - k) * 2 ^ p + (y - u)). split.
  - f_equal. transitivity (to_int32 y).
    + symmetry. apply to_int32_id. unfold int32_ok in *. lia.
    + apply to_int32_eqm. replace ((j - k) * 2 ^ p + (y - u)) with (y + ((j - k) * 2 ^ p - u)) by ring.
      rewrite <- Zplus_mod_idemp_r. replace (((j - k) * 2 ^ p - u) mod 2 ^ 32) with 0; [now rewrite Z.add_0_r|].
      symmetry. rewrite Zminus_mod. unfold u. rewrite to_int32_mod, Z.sub_diag. reflexivity.
  - pose proof (pow2_pos p ltac:(lia)) as P. set (Q := IZR (2 ^ p)) in *.
    assert (QP : (0 < Q)%R) by (apply IZR_lt; auto). pose proof ln2_lb as LN.
    assert (Pj : 0 < 2 ^ j) by (apply pow2_pos; lia). assert (Pk : 0 < 2 ^ k) by (apply pow2_pos; lia).
    pose proof (L_floor p xd xu (2 ^ j) ltac:(lia) ltac:(lia) ltac:(lia) XD) as LF. fold Q in LF.
    assert (PW : forall n, 0 <= n -> log2R (IZR (2 ^ n)) = IZR n).
    { intros m Hm. unfold log2R. rewrite IZR_pow2 by auto. rewrite <- Rpower_pow by lra. unfold Rpower. rewrite ln_exp.
      rewrite INR_IZR_INZ, Z2Nat.id by auto. field. lra. }
    assert (EQ : log2R (IZR xu / IZR (2 ^ j) / Q) = (log2R (IZR x / Q) + IZR k - IZR j)%R).
    { assert (xR : (0 < IZR x / Q)%R) by (apply Rdiv_lt_0_compat; auto; apply IZR_lt; lia).
      assert (kR : (0 < IZR (2 ^ k))%R) by (apply IZR_lt; lia). assert (jR : (0 < IZR (2 ^ j))%R) by (apply IZR_lt; lia).
      assert (H1 : log2R (IZR xu / IZR (2 ^ j) / Q * IZR (2 ^ j)) = log2R (IZR x / Q * IZR (2 ^ k))).
      { f_equal. rewrite XU, mult_IZR. field. lra. }
      rewrite !log2_mult, !PW in H1; auto; [lra|]. apply Rdiv_lt_0_compat; auto. apply Rdiv_lt_0_compat; auto. apply IZR_lt. lia. }
    rewrite EQ in LF. rewrite plus_IZR, mult_IZR, (minus_IZR j k). fold Q.
    set (T := log2R (IZR x / Q)) in *. destruct LF as [F1 F2].
    apply (Rmult_le_compat_l Q) in F1; [|lra]. apply (Rmult_lt_compat_l Q) in F2; [|lra].
    replace (Q * (L p xd + / (Q * ln 2)))%R with (Q * L p xd + / ln 2)%R in F2 by (field; lra).
    assert (/ ln 2 < 3 / 2)%R.
    { replace (3 / 2)%R with (/ (2 / 3))%R by field. apply Rinv_lt_contravar; [|lra]. apply Rmult_lt_0_compat; lra. }
    lra.
Qed.

(** With at most 26 fractional bits the result never wraps. *)
Lemma log2fix_range x p Y : 1 <= p <= 26 -> 1 <= x < 2 ^ 32 ->
  (IZR Y <= log2R (IZR x / IZR (2 ^ p)) * IZR (2 ^ p) < IZR Y + 4)%R -> int32_ok Y.
Proof.
  intros Hp Hx [H1 H2].
  pose proof (pow2_pos p ltac:(lia)) as P. assert (Pb : 2 ^ p <= 2 ^ 26) by (apply Z.pow_le_mono_r; lia).
  change (2 ^ 26) with 67108864 in Pb.
  set (Q := IZR (2 ^ p)) in *. assert (QP : (0 < Q)%R) by (apply IZR_lt; auto). pose proof ln2_pos as LN.
  assert (PW : forall n, 0 <= n -> log2R (IZR (2 ^ n)) = IZR n).
  { intros m Hm. unfold log2R. rewrite IZR_pow2 by auto. rewrite <- Rpower_pow by lra. unfold Rpower. rewrite ln_exp.
    rewrite INR_IZR_INZ, Z2Nat.id by auto. field. lra. }
  assert (xR : (0 < IZR x / Q)%R) by (apply Rdiv_lt_0_compat; auto; apply IZR_lt; lia).
  assert (E : (log2R (IZR x / Q) + IZR p = log2R (IZR x))%R).
  { rewrite <- (PW p) by lia. fold Q. rewrite <- log2_mult by auto. f_equal. field. lra. }
  assert (LO : (0 <= log2R (IZR x))%R) by (rewrite <- log2_1; apply log2_le; [lra|]; apply IZR_le; lia).
  assert (HI : (log2R (IZR x) <= 32)%R).
  { rewrite <- (PW 32) by lia. apply log2_le; [apply IZR_lt; lia|apply IZR_le; lia]. }
  assert (PR : (1 <= IZR p <= 26)%R) by (split; apply IZR_le; lia).
  assert (QB : (Q <= 67108864)%R) by (apply IZR_le; auto).
  assert (B1 : (- (26 * 67108864) <= log2R (IZR x / Q) * Q)%R).
  { assert (- 26 <= log2R (IZR x / Q))%R by lra. nra. }
  unfold int32_ok. split; apply le_IZR.
  - assert (- (26 * 67108864) - 4 < IZR Y)%R by lra. lra.
  - assert (B2 : (log2R (IZR x / Q) * Q <= 31 * 67108864)%R).
    { assert (log2R (IZR x / Q) <= 31)%R by lra.
      destruct (Rle_or_lt (log2R (IZR x / Q)) 0); nra. }
    lra.
Qed.

(** ** What goes wrong outside *)
Lemma log2fix_31_loops fuel x : 1 <= x < 2 ^ 32 -> eml_bayes_log2fix fuel x 31 = Err NoFuel.
Proof.
  intros Hx. unfold eml_bayes_log2fix. change (shl1U 1 (31 - 1)) with (Ret 1073741824). cbn [bind]. cbv zeta.
  destruct (Z.eqb_spec x 0); [lia|]. change ((31 <? 1) || (31 <? 31)) with false. cbv iota.
  change (shl1U 1 31) with (Ret 2147483648). cbn [bind].
  assert (U : forall f x y, 1 <= x < 2 ^ 32 -> log2_up f 2147483648 x y = Err NoFuel \/ exists x' y', log2_up f 2147483648 x y = Ret (x', y') /\ 1 <= x').
  { induction f as [|f IH]; intros a y Ha; simpl; auto. destruct (Z.ltb_spec a 2147483648).
    - apply IH. unfold to_uint32, to_unsigned. rewrite Z.mod_small by (change (2 ^ 32) with 4294967296; lia).
      change (2 ^ 32) with 4294967296. lia.
    - right. exists a, y. split; auto. lia. }
  destruct (U fuel x 0 Hx) as [E|(x' & y' & E & X')]; rewrite E; [reflexivity|]. cbn [bind].
  change (shl1U 2 31) with (Ret 0). cbn [bind].
  assert (D : forall f x y, 0 <= x -> log2_down f 2147483648 0 x y = Err NoFuel).
  { induction f as [|f IH]; intros a y Ha; simpl; auto. destruct (Z.leb_spec 0 a); [|lia]. apply IH. apply Z.shiftr_nonneg. lia. }
  rewrite D by lia. reflexivity.
Qed.
