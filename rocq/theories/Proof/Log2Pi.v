(** The decimal constant 1.8378770664093453 is ln(2 pi) up to 10^-13. *)
From Coq Require Import Reals QArith Qreals ZArith Lra Lia Ratan Machin.
From Coquelicot Require Import Derive.
Open Scope R_scope.

(** ** exp on [0,1] *)
Fixpoint termq (n : nat) (q : Q) : Q := match n with O => 1%Q | S m => (termq m q * q / inject_Z (Z.of_nat n))%Q end.
Fixpoint sumq (n : nat) (q : Q) : Q := match n with O => 1%Q | S m => (sumq m q + termq n q)%Q end.
Lemma Q2R_injZ z : Q2R (inject_Z z) = IZR z.
Proof. unfold Q2R, inject_Z. simpl. lra. Qed.
Lemma Q2R_1 : Q2R 1 = 1.
Proof. unfold Q2R; simpl; lra. Qed.
Lemma termq_R n q : Q2R (termq n q) = Q2R q ^ n / INR (fact n).
Proof.
  induction n as [|n IH].
  - simpl. rewrite Q2R_1. lra.
  - cbn [termq]. rewrite Q2R_div.
    2:{ intros H. apply Qeq_eqR in H. rewrite Q2R_injZ in H. replace (Q2R 0) with 0 in H by (unfold Q2R; simpl; lra).
        apply eq_IZR in H. lia. }
    rewrite Q2R_mult, IH, Q2R_injZ. rewrite <- INR_IZR_INZ. rewrite fact_simpl, mult_INR. cbn [pow].
    pose proof (INR_fact_neq_0 n). assert (INR (S n) <> 0) by (apply not_0_INR; lia). field. split; auto.
Qed.
Lemma sumq_R n q : Q2R (sumq n q) = sum_f_R0 (fun m => Q2R q ^ m / INR (fact m)) n.
Proof.
  induction n as [|n IH]; [simpl; rewrite Q2R_1; lra|]. cbn [sumq sum_f_R0]. rewrite Q2R_plus, IH, termq_R. reflexivity.
Qed.
Lemma Derive_n_exp n x : Derive_n exp n x = exp x.
Proof.
  revert x; induction n as [|n IH]; intros x; [reflexivity|]. cbn [Derive_n]. rewrite (Derive_ext _ exp) by (intros; apply IH).
  apply is_derive_unique. apply is_derive_Reals. apply derivable_pt_lim_exp.
Qed.
Lemma ex_derive_n_exp n x : ex_derive_n exp n x.
Proof.
  destruct n as [|n]; [exact I|]. simpl. eapply ex_derive_ext; [intros t; symmetry; apply Derive_n_exp|].
  exists (exp x). apply is_derive_Reals. apply derivable_pt_lim_exp.
Qed.
Lemma exp_bounds n q : 0 < Q2R q <= 1 -> Q2R (sumq n q) <= exp (Q2R q) <= Q2R (sumq n q) + 3 * Q2R (termq (S n) q).
Proof.
  intros [H0 H1]. destruct (Taylor_Lagrange exp n 0 (Q2R q) H0) as (z & Hz & E). { intros; apply ex_derive_n_exp. }
  rewrite Rminus_0_r in E. rewrite E. rewrite !Derive_n_exp. rewrite sumq_R, termq_R.
  replace (sum_f_R0 (fun m => Q2R q ^ m / INR (fact m) * Derive_n exp m 0) n) with (sum_f_R0 (fun m => Q2R q ^ m / INR (fact m)) n).
  2:{ apply sum_eq. intros i _. rewrite Derive_n_exp, exp_0. lra. }
  set (T := Q2R q ^ S n / INR (fact (S n))).
  assert (0 < T) by (apply Rdiv_lt_0_compat; [apply pow_lt; auto|apply lt_0_INR, lt_O_fact]).
  assert (exp z <= 3). { apply Rle_trans with (exp 1); [|apply exp_le_3]. destruct (Rle_lt_or_eq_dec z 1); [lra| |]. - left; apply exp_increasing; lra. - subst; lra. }
  pose proof (exp_pos z). assert (T * exp z <= T * 3) by (apply Rmult_le_compat_l; lra). assert (0 < T * exp z) by (apply Rmult_lt_0_compat; lra). lra.
Qed.

(** ** pi *)
Fixpoint powq (q : Q) (n : nat) : Q := match n with O => 1%Q | S m => (q * powq q m)%Q end.
Lemma powq_R q n : Q2R (powq q n) = Q2R q ^ n.
Proof. induction n; [apply Q2R_1|]. cbn [powq pow]. rewrite Q2R_mult, IHn. reflexivity. Qed.
Definition atanq (q : Q) (n : nat) : Q := (powq q (2 * n + 1) / inject_Z (Z.of_nat (2 * n + 1)))%Q.
Lemma atanq_R q n : Q2R (atanq q n) = Ratan_seq (Q2R q) n.
Proof.
  unfold atanq, Ratan_seq. rewrite Q2R_div, powq_R, Q2R_injZ, INR_IZR_INZ; [reflexivity|].
  intros H. apply Qeq_eqR in H. rewrite Q2R_injZ in H. replace (Q2R 0) with 0 in H by (unfold Q2R; simpl; lra). apply eq_IZR in H. lia.
Qed.
Definition machinq (n : nat) : Q := (powq (-1 # 1) n * (2 * atanq (1 # 3) n + atanq (1 # 7) n))%Q.
Lemma machinq_R n : Q2R (machinq n) = tg_alt PI_2_3_7_tg n.
Proof.
  unfold machinq, tg_alt, PI_2_3_7_tg. rewrite Q2R_mult, Q2R_plus, Q2R_mult, !atanq_R, powq_R.
  replace (Q2R (-1 # 1)) with (-1) by (unfold Q2R; simpl; lra). replace (Q2R 2) with 2 by (unfold Q2R; simpl; lra).
  replace (Q2R (1 # 3)) with (/ 3) by (unfold Q2R; simpl; lra). replace (Q2R (1 # 7)) with (/ 7) by (unfold Q2R; simpl; lra). reflexivity.
Qed.
Fixpoint machin_sum (n : nat) : Q := match n with O => machinq 0 | S m => (machin_sum m + machinq n)%Q end.
Lemma machin_sum_R n : Q2R (machin_sum n) = sum_f_R0 (tg_alt PI_2_3_7_tg) n.
Proof. induction n; cbn [machin_sum sum_f_R0]; [apply machinq_R|]. rewrite Q2R_plus, IHn, machinq_R. reflexivity. Qed.
Lemma pi_bounds n : 4 * Q2R (machin_sum (S (2 * n))) <= PI <= 4 * Q2R (machin_sum (2 * n)).
Proof. rewrite !machin_sum_R. pose proof (PI_2_3_7_ineq n). lra. Qed.

Lemma Qle_R p q : Qle_bool p q = true -> Q2R p <= Q2R q.
Proof. intros H. apply Qle_Rle. now apply Qle_bool_iff. Qed.

Definition half_lit : Q := 18378770664093453 # 20000000000000000.
(** Horner's scheme: 1 + q/k (1 + q/(k+1) (...)). *)
Fixpoint horner (n : nat) (k : Z) (q : Q) : Q := match n with O => 1%Q | S m => (1 + q / inject_Z k * horner m (k + 1) q)%Q end.
Lemma horner_R n : forall j q, Q2R q ^ j / INR (fact j) * Q2R (horner n (Z.of_nat (S j)) q) =
  sum_f_R0 (fun m => Q2R q ^ (j + m) / INR (fact (j + m))) n.
Proof.
  induction n as [|n IH]; intros j q; cbn [horner].
  - rewrite Q2R_1. cbn [sum_f_R0]. rewrite Nat.add_0_r. lra.
  - rewrite Q2R_plus, Q2R_mult, Q2R_1. rewrite Q2R_div.
    2:{ intros H. apply Qeq_eqR in H. rewrite Q2R_injZ in H. replace (Q2R 0) with 0 in H by (unfold Q2R; simpl; lra).
        apply eq_IZR in H. lia. }
    rewrite Q2R_injZ. rewrite <- INR_IZR_INZ.
    rewrite (decomp_sum _ (S n)) by lia. rewrite Nat.add_0_r. cbn [pred].
    rewrite (sum_eq _ (fun m => Q2R q ^ (S j + m) / INR (fact (S j + m)))) by (intros; rewrite <- Nat.add_succ_comm; reflexivity).
    rewrite <- IH. replace (Z.of_nat (S (S j))) with (Z.of_nat (S j) + 1)%Z by lia.
    rewrite fact_simpl, mult_INR. cbn [pow]. pose proof (INR_fact_neq_0 j). assert (INR (S j) <> 0) by (apply not_0_INR; lia). field. auto.
Qed.
Lemma horner_sum n q : Q2R (horner n 1 q) = Q2R (sumq n q).
Proof.
  rewrite sumq_R. pose proof (horner_R n 0 q) as H. cbn [pow fact Nat.add] in H. rewrite <- H. change (INR 1) with 1. change (Z.of_nat 1) with 1%Z. lra.
Qed.
Definition up : Q := 25066282746310002857 # 10000000000000000000.
Definition lo : Q := 25066282746310002706 # 10000000000000000000.
Definition rest : Q := 1 # 100000000000000000.
Definition eps : Q := 1 # 10000000000000.
Definition pi_lo : Q := 7853981633974482997 # 10000000000000000000.
Definition pi_hi : Q := 7853981633974484042 # 10000000000000000000.
Lemma check_up : Qle_bool (horner 18 1 half_lit) (up - rest) = true.
Proof. vm_compute. reflexivity. Qed.
Lemma check_rest : Qle_bool (3 * termq 19 half_lit) rest = true.
Proof. vm_compute. reflexivity. Qed.
Lemma check_lo' : Qle_bool lo (horner 18 1 half_lit) = true.
Proof. vm_compute. reflexivity. Qed.
Lemma check_pl : Qle_bool pi_lo (machin_sum (S (2 * 7))) = true.
Proof. vm_compute. reflexivity. Qed.
Lemma check_ph : Qle_bool (machin_sum (2 * 7)) pi_hi = true.
Proof. vm_compute. reflexivity. Qed.
Lemma check_lo : Qle_bool (up * up) (8 * pi_lo * (1 + eps)) = true.
Proof. vm_compute. reflexivity. Qed.
Lemma check_hi : Qle_bool (8 * pi_hi) (lo * lo * (1 + eps)) = true.
Proof. vm_compute. reflexivity. Qed.
Lemma Q2R_half : Q2R half_lit = 18378770664093453 / 20000000000000000.
Proof. unfold Q2R, half_lit. simpl. lra. Qed.

Theorem ln_2pi : Rabs (ln (2 * PI) - 18378770664093453 / 10000000000000000) <= 1 / 10000000000000.
Proof.
  assert (HB : 0 < Q2R half_lit <= 1) by (rewrite Q2R_half; lra).
  pose proof (exp_bounds 18 half_lit HB) as [EL EU].
  assert (EU' : exp (Q2R half_lit) <= Q2R up).
  { pose proof (Qle_R _ _ check_up) as K1. pose proof (Qle_R _ _ check_rest) as K2. rewrite horner_sum, Q2R_minus in K1.
    rewrite Q2R_mult in K2. replace (Q2R 3) with 3 in K2 by (unfold Q2R; simpl; lra).
    set (S1 := Q2R (sumq 18 half_lit)) in *. set (T1 := Q2R (termq 19 half_lit)) in *. set (U1 := Q2R up) in *. set (R1 := Q2R rest) in *.
    set (X1 := exp (Q2R half_lit)) in *. clearbody S1 T1 U1 R1 X1. clear - EU K1 K2. lra. }
  assert (EL' : Q2R lo <= exp (Q2R half_lit)) by (pose proof (Qle_R _ _ check_lo') as K; rewrite horner_sum in K; eapply Rle_trans; [exact K|exact EL]).
  pose proof (pi_bounds 7) as [PL PU].
  assert (PL' : 4 * Q2R pi_lo <= PI) by (pose proof (Qle_R _ _ check_pl) as K; eapply Rle_trans; [apply Rmult_le_compat_l; [lra|exact K]|exact PL]).
  assert (PU' : PI <= 4 * Q2R pi_hi) by (pose proof (Qle_R _ _ check_ph) as K; eapply Rle_trans; [exact PU|apply Rmult_le_compat_l; [lra|exact K]]).
  pose proof (Qle_R _ _ check_lo) as C1. pose proof (Qle_R _ _ check_hi) as C2.
  rewrite !Q2R_mult, !Q2R_plus in C1, C2.
  replace (Q2R 8) with 8 in C1, C2 by (unfold Q2R; simpl; lra). rewrite Q2R_1 in C1, C2.
  replace (Q2R eps) with (1 / 10000000000000) in C1, C2 by (unfold Q2R, eps; simpl; lra).
  set (e := 1 / 10000000000000) in *. assert (HE : 0 < e) by (unfold e; lra).
  set (a := 18378770664093453 / 10000000000000000).
  assert (HA : exp a = exp (Q2R half_lit) * exp (Q2R half_lit)).
  { rewrite <- exp_plus. f_equal. rewrite Q2R_half. unfold a. lra. }
  assert (L0 : 0 < Q2R lo). { assert (Q2R 1 <= Q2R lo) by (apply Qle_R; vm_compute; reflexivity). rewrite Q2R_1 in H. lra. }
  pose proof (exp_pos (Q2R half_lit)) as EP. pose proof (exp_ineq1_le e) as E1. pose proof PI_RGT_0.
  clearbody e. clear - HE EU' EL' PL' PU' C1 C2 HA L0 EP E1 H.
  set (s := exp (Q2R half_lit)) in *. clearbody s. set (u := Q2R up) in *. set (l := Q2R lo) in *. set (ph := Q2R pi_hi) in *. set (pl := Q2R pi_lo) in *.
  clearbody u l ph pl.
  assert (S1 : s * s <= u * u) by (apply Rmult_le_compat; lra).
  assert (S2 : l * l <= s * s) by (apply Rmult_le_compat; lra).
  assert (M1 : 8 * pl * (1 + e) <= 2 * PI * (1 + e)) by (apply Rmult_le_compat_r; lra).
  assert (M2 : l * l * (1 + e) <= s * s * (1 + e)) by (apply Rmult_le_compat_r; lra).
  assert (X1 : exp a <= 2 * PI * exp e).
  { rewrite HA. apply Rle_trans with (2 * PI * (1 + e)); [lra|]. apply Rmult_le_compat_l; lra. }
  assert (X2 : 2 * PI <= exp a * exp e).
  { rewrite HA. apply Rle_trans with (s * s * (1 + e)); [lra|]. apply Rmult_le_compat_l; [|lra]. apply Rmult_le_pos; lra. }
  assert (LE : forall x y, 0 < x -> x <= y -> ln x <= ln y).
  { intros x y Hx Hxy. destruct (Rle_lt_or_eq_dec x y Hxy) as [Lt|Eq]; [left; now apply ln_increasing|subst; lra]. }
  pose proof (exp_pos e) as Pe. pose proof (exp_pos a) as Pa.
  apply LE in X1; [|lra]. apply LE in X2; [|lra]. rewrite (ln_mult (2 * PI)) in X1 by lra. rewrite (ln_mult (exp a)) in X2 by lra. rewrite !ln_exp in X1, X2.
  apply Rabs_le. lra.
Qed.
