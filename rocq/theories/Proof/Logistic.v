(** The logistic function: Lipschitz with constant 1/4, and its float32 evaluation. *)
From Coq Require Import ZArith Bool Lia Reals Lra.
From Flocq Require Import Core BinarySingleNaN.
From Flocq.Prop Require Import Relative.
From Verif.Base Require Import Res Float FloatOrder Arith.
From Verif.Spec Require Import RoundingSpec.
From Verif.Proof Require Import FloatMean FloatErr.
Open Scope R_scope.

#[local] Instance vexp24 : Valid_exp (SpecFloat.fexp 24 128) := FLT_exp_valid _ _.

Lemma sigma_pos v : 0 < sigma v < 1.
Proof.
  unfold sigma. pose proof (exp_pos (- v)). split; [apply Rinv_0_lt_compat; lra|].
  rewrite <- Rinv_1. apply Rinv_lt_contravar; lra.
Qed.
Lemma sigma_deriv c : derivable_pt_lim sigma c (sigma c * (1 - sigma c)).
Proof.
  unfold sigma. pose proof (exp_pos (- c)) as P.
  assert (D1 : derivable_pt_lim (fun v => exp (- v)) c (exp (- c) * -1)).
  { apply (derivable_pt_lim_comp Ropp exp c (-1) (exp (- c))); [|apply derivable_pt_lim_exp].
    replace (-1) with (- (1)) by ring. apply (derivable_pt_lim_opp id c 1). apply derivable_pt_lim_id. }
  assert (D2 : derivable_pt_lim (fun v => 1 + exp (- v)) c (0 + exp (- c) * -1)).
  { apply (derivable_pt_lim_plus (fct_cte 1) (fun v => exp (- v)) c 0); [apply derivable_pt_lim_const|exact D1]. }
  assert (D3 : derivable_pt_lim (fun v => 1 / (1 + exp (- v))) c ((0 * (1 + exp (- c)) - (0 + exp (- c) * -1) * 1) / Rsqr (1 + exp (- c)))).
  { apply (derivable_pt_lim_div (fct_cte 1) (fun v => 1 + exp (- v)) c 0); [apply derivable_pt_lim_const|exact D2|lra]. }
  assert (EX : forall v, 1 / (1 + exp (- v)) = / (1 + exp (- v))) by (intros v; unfold Rdiv; ring).
  replace (/ (1 + exp (- c)) * (1 - / (1 + exp (- c)))) with ((0 * (1 + exp (- c)) - (0 + exp (- c) * -1) * 1) / Rsqr (1 + exp (- c))).
  - intros e He. destruct (D3 e He) as [del Hd]. exists del. intros h H0 Hh. rewrite <- !EX. apply Hd; assumption.
  - unfold Rsqr. field. lra.
Qed.
Lemma sigma_lip a b : Rabs (sigma a - sigma b) <= Rabs (a - b) / 4.
Proof.
  assert (G : forall a b, a < b -> Rabs (sigma b - sigma a) <= Rabs (b - a) / 4).
  { clear. intros a b H. destruct (MVT_cor2 sigma (fun c => sigma c * (1 - sigma c)) a b H) as (c & E & _).
    - intros c _. apply sigma_deriv.
    - rewrite E, Rabs_mult. pose proof (sigma_pos c).
      assert (0 <= sigma c * (1 - sigma c) <= / 4) by (split; [apply Rmult_le_pos; lra|pose proof (Rle_0_sqr (sigma c - / 2)) as SQ; unfold Rsqr in SQ; lra]).
      rewrite (Rabs_pos_eq (sigma c * _)) by lra. pose proof (Rabs_pos (b - a)).
      apply Rle_trans with (/ 4 * Rabs (b - a)); [apply Rmult_le_compat_r; lra|lra]. }
  destruct (Rtotal_order a b) as [H|[->|H]].
  - rewrite (Rabs_minus_sym (sigma a)), (Rabs_minus_sym a). now apply G.
  - rewrite !Rminus_diag_eq, Rabs_R0 by reflexivity. lra.
  - now apply G.
Qed.
Lemma tanh_sigma v : tanh v = 2 * sigma (2 * v) - 1.
Proof.
  unfold tanh, sinh, cosh, sigma. pose proof (exp_pos v). pose proof (exp_pos (- v)). pose proof (exp_pos (- (2 * v))).
  assert (E : exp (- (2 * v)) = exp (- v) * exp (- v)) by (rewrite <- exp_plus; f_equal; ring).
  assert (E' : exp v * exp (- v) = 1) by (rewrite <- exp_plus, Rplus_opp_r; apply exp_0).
  rewrite E. set (p := exp v) in *. set (q := exp (- v)) in *.
  assert (Q : 0 < p + q) by lra. assert (Q' : 0 < 1 + q * q) by nra.
  apply Rmult_eq_reg_r with ((p + q) * (1 + q * q)); [|nra].
  transitivity ((p - q) * (1 + q * q)); [field; lra|]. transitivity ((2 - (1 + q * q)) * (p + q)); [nra|field; lra].
Qed.
Lemma tanh_lip a b : Rabs (tanh a - tanh b) <= Rabs (a - b).
Proof.
  rewrite !tanh_sigma. replace (2 * sigma (2 * a) - 1 - (2 * sigma (2 * b) - 1)) with (2 * (sigma (2 * a) - sigma (2 * b))) by ring.
  rewrite Rabs_mult, (Rabs_pos_eq 2) by lra. pose proof (sigma_lip (2 * a) (2 * b)) as L.
  replace (2 * a - 2 * b) with (2 * (a - b)) in L by ring. rewrite Rabs_mult, (Rabs_pos_eq 2) in L by lra. lra.
Qed.
Lemma tanh_bound v : Rabs (tanh v) <= 1.
Proof. rewrite tanh_sigma. pose proof (sigma_pos (2 * v)). apply Rabs_le. lra. Qed.

(** e^64 is between 2^80 and 2^102. *)
Lemma pow_5_4 : bpow radix2 80 <= (5 / 4) ^ 256.
Proof.
  assert (E : 32 <= (5 / 4) ^ 16) by (simpl; lra).
  replace ((5 / 4) ^ 256) with (((5 / 4) ^ 16) ^ 16) by (rewrite <- pow_mult; reflexivity).
  apply Rle_trans with (32 ^ 16); [|apply pow_incr; lra].
  change (bpow radix2 80) with (IZR (2 ^ 80)). rewrite pow_IZR. apply IZR_le. vm_compute. discriminate.
Qed.
Lemma exp_pow n : exp (INR n / 4) = exp (/ 4) ^ n.
Proof.
  induction n as [|n IH]; [simpl; unfold Rdiv; rewrite Rmult_0_l; apply exp_0|].
  rewrite S_INR. cbn [pow]. rewrite <- IH, <- exp_plus. f_equal. lra.
Qed.
Lemma exp64_lo : bpow radix2 80 <= exp 64.
Proof.
  assert (E4 : INR 256 = 256) by (rewrite INR_IZR_INZ; reflexivity). replace 64 with (INR 256 / 4) by (rewrite E4; lra). rewrite exp_pow.
  eapply Rle_trans; [apply pow_5_4|]. apply pow_incr. split; [lra|]. apply Rle_trans with (1 + / 4); [lra|].
  left. apply exp_ineq1. lra.
Qed.
Lemma exp64_hi : exp 64 <= bpow radix2 102.
Proof.
  assert (E4 : INR 64 = 64) by (rewrite INR_IZR_INZ; reflexivity). replace 64 with (INR 64 * 1) by (rewrite E4; lra).
  assert (G : forall n, exp (INR n * 1) = exp 1 ^ n).
  { induction n as [|n IH]; [simpl; rewrite Rmult_0_l; apply exp_0|]. rewrite S_INR, Rmult_plus_distr_r, exp_plus, IH, Rmult_1_r. simpl. ring. }
  rewrite G. apply Rle_trans with (3 ^ 64).
  - apply pow_incr. split; [left; apply exp_pos|apply exp_le_3].
  - change (bpow radix2 102) with (IZR (2 ^ 102)). rewrite pow_IZR. apply IZR_le. vm_compute. discriminate.
Qed.

Lemma fdiv32g (a b : f32) : is_finite a = true -> B2R b <> 0 -> Rabs (B2R a / B2R b) <= bpow radix2 126 ->
  is_finite (fdiv a b) = true /\ exists eps eta, Rabs eps <= u24 /\ Rabs eta <= bpow radix2 (-150) /\ B2R (fdiv a b) = B2R a / B2R b * (1 + eps) + eta.
Proof.
  intros Fa Nb L.
  pose proof (Bdiv_correct 24 128 _ _ mode_NE a b Nb) as C. simpl round_mode in C.
  destruct (@error_N_FLT radix2 (SpecFloat.emin 24 128) 24 eq_refl (fun x => negb (Z.even x)) (B2R a / B2R b)) as (eps & eta & E1 & E2 & _ & E).
  change (round radix2 (FLT_exp (SpecFloat.emin 24 128) 24) (Znearest (fun x => negb (Z.even x))) (B2R a / B2R b))
    with (round radix2 (SpecFloat.fexp 24 128) ZnearestE (B2R a / B2R b)) in E.
  assert (E1' : (Rabs eps <= u24)%R) by (change (bpow radix2 (Z.opp 24 + 1)) with (/ 8388608)%R in E1; lra).
  assert (E2' : (Rabs eta <= bpow radix2 (-150))%R).
  { replace (bpow radix2 (-150)) with (/ 2 * bpow radix2 (SpecFloat.emin 24 128))%R; [exact E2|]. change (/ 2)%R with (bpow radix2 (-1)). rewrite <- bpow_plus. reflexivity. }
  rewrite E in C. rewrite Rlt_bool_true in C.
  - destruct C as (C1 & C2 & _). rewrite Fa in C2. split; [exact C2|]. exists eps, eta. auto.
  - eapply Rle_lt_trans; [apply Rabs_triang|]. rewrite Rabs_mult.
    assert (P1 : Rabs (1 + eps) <= 2) by (eapply Rle_trans; [apply Rabs_triang|]; rewrite Rabs_R1; lra).
    assert (bpow radix2 128 = 4 * bpow radix2 126)%R as -> by (change 4%R with (bpow radix2 2); rewrite <- bpow_plus; reflexivity).
    assert (1 <= bpow radix2 126)%R by (change 1%R with (bpow radix2 0); apply bpow_le; lia).
    assert (bpow radix2 (-150) <= 1)%R by (change 1%R with (bpow radix2 0); apply bpow_le; lia).
    assert (Rabs (B2R a / B2R b) * Rabs (1 + eps) <= bpow radix2 126 * 2) by (apply Rmult_le_compat; auto using Rabs_pos). lra.
Qed.

Lemma one32 : B2R (f_of_Z 1 : f32) = 1 /\ is_finite (f_of_Z 1 : f32) = true.
Proof. destruct (@f_of_Z_exact 24 128 _ _ 1 ltac:(simpl; lia)) as [V F]. split; [exact V|exact F]. Qed.

(** 1 / (1 + E), E at least 0 and not too large. *)
Lemma inv_one_plus (E : f32) : is_finite E = true -> 0 <= B2R E <= bpow radix2 110 ->
  is_finite (fdiv (f_of_Z 1) (fadd (f_of_Z 1) E) : f32) = true /\
  Rabs (B2R (fdiv (f_of_Z 1) (fadd (f_of_Z 1) E) : f32) - / (1 + B2R E)) <= 7 / 2 * u24.
Proof.
  intros FE BE. destruct one32 as [V1 F1].
  assert (B110 : bpow radix2 110 <= bpow radix2 126 / 4).
  { apply Rle_trans with (bpow radix2 124); [apply bpow_le; lia|]. right. change 4 with (bpow radix2 2). unfold Rdiv. rewrite <- bpow_opp, <- bpow_plus. reflexivity. }
  assert (B1 : 1 <= bpow radix2 110) by (change 1 with (bpow radix2 0); apply bpow_le; lia).
  destruct (fadd32 (f_of_Z 1) E F1 FE) as (Fa & e1 & U1 & Va). { rewrite V1, Rabs_pos_eq by lra. lra. }
  rewrite V1 in Va. set (a := fadd (f_of_Z 1) E : f32) in *.
  assert (PE : -u24 <= e1 <= u24) by (apply Rabs_le_inv; exact U1).
  assert (PA : / 2 <= B2R a). { rewrite Va. nra. }
  assert (IE : 0 < / (1 + B2R E) <= 1). { split; [apply Rinv_0_lt_compat; lra|]. rewrite <- Rinv_1 at 2. apply Rinv_le; lra. }
  assert (IA : / B2R a = / (1 + B2R E) * / (1 + e1)) by (rewrite Va; field; lra).
  assert (I1 : Rabs (/ (1 + e1) - 1) <= 9 / 8 * u24).
  { replace (/ (1 + e1) - 1) with (- e1 * / (1 + e1)) by (field; lra). rewrite Rabs_mult, Rabs_Ropp.
    assert (0 < / (1 + e1) <= 9 / 8).
    { split; [apply Rinv_0_lt_compat; lra|]. apply Rmult_le_reg_r with (1 + e1); [lra|]. rewrite Rinv_l by lra. lra. }
    rewrite (Rabs_pos_eq (/ (1 + e1))) by lra. rewrite Rmult_comm. apply Rmult_le_compat; try lra. apply Rabs_pos. }
  assert (P1 : Rabs (/ (1 + e1)) <= 9 / 8).
  { replace (/ (1 + e1)) with ((/ (1 + e1) - 1) + 1) by ring. eapply Rle_trans; [apply Rabs_triang|]. rewrite Rabs_R1. lra. }
  assert (AI : Rabs (/ B2R a) <= 9 / 8).
  { rewrite IA, Rabs_mult, (Rabs_pos_eq (/ (1 + B2R E))) by lra. apply Rle_trans with (1 * (9 / 8)); [|lra]. apply Rmult_le_compat; try lra. apply Rabs_pos. }
  destruct (fdiv32g (f_of_Z 1) a F1) as (Fy & e2 & eta & U2 & U3 & Vy). { lra. }
  { rewrite V1. unfold Rdiv. rewrite Rmult_1_l. eapply Rle_trans; [exact AI|]. lra. }
  split; [exact Fy|]. rewrite Vy, V1. unfold Rdiv at 1. rewrite Rmult_1_l.
  replace (/ B2R a * (1 + e2) + eta - / (1 + B2R E)) with ((/ B2R a - / (1 + B2R E)) + / B2R a * e2 + eta) by ring.
  eapply Rle_trans; [apply Rabs_triang|]. eapply Rle_trans; [apply Rplus_le_compat_r; apply Rabs_triang|].
  assert (Q1 : Rabs (/ B2R a - / (1 + B2R E)) <= 9 / 8 * u24).
  { rewrite IA. replace (/ (1 + B2R E) * / (1 + e1) - / (1 + B2R E)) with (/ (1 + B2R E) * (/ (1 + e1) - 1)) by ring.
    rewrite Rabs_mult, (Rabs_pos_eq (/ (1 + B2R E))) by lra. apply Rle_trans with (1 * (9 / 8 * u24)); [|lra]. apply Rmult_le_compat; try lra. apply Rabs_pos. }
  assert (Q2 : Rabs (/ B2R a * e2) <= 9 / 8 * u24) by (rewrite Rabs_mult; apply Rmult_le_compat; auto using Rabs_pos).
  assert (Q3 : bpow radix2 (-150) <= u24) by (change u24 with (bpow radix2 (-24)); apply bpow_le; lia). lra.
Qed.

(** 1 / (1 + E), E huge or infinite. *)
Lemma inv_one_plus_big (E : f32) : fleb (f_of_ZE 1 80) E = true ->
  is_finite (fdiv (f_of_Z 1) (fadd (f_of_Z 1) E) : f32) = true /\ Rabs (B2R (fdiv (f_of_Z 1) (fadd (f_of_Z 1) E) : f32)) <= bpow radix2 (-79).
Proof.
  intros H. destruct one32 as [V1 F1].
  assert (V80 : B2R (f_of_ZE 1 80 : f32) = bpow radix2 80 /\ is_finite (f_of_ZE 1 80 : f32) = true).
  { pose proof (binary_normalize_correct 24 128 eq_refl eq_refl mode_NE 1 80 false) as C. cbv zeta in C. simpl round_mode in C.
    assert (V : F2R {| Fnum := 1; Fexp := 80 |} = bpow radix2 80) by (unfold F2R; cbn [Fnum Fexp]; apply Rmult_1_l). rewrite V in C.
    rewrite round_generic in C; auto with typeclass_instances.
    2:{ apply generic_format_bpow. vm_compute. discriminate. }
    rewrite Rlt_bool_true in C by (rewrite Rabs_pos_eq by apply bpow_ge_0; apply bpow_lt; lia).
    destruct C as (C1 & C2 & _). split; [exact C1|exact C2]. }
  destruct V80 as [V80 F80].
  assert (P79 : 0 < bpow radix2 (-79)) by apply bpow_gt_0.
  assert (OV : forall a : f32, a = B754_infinity false -> is_finite (fdiv (f_of_Z 1) a : f32) = true /\ Rabs (B2R (fdiv (f_of_Z 1) a : f32)) <= bpow radix2 (-79)).
  { intros a ->. assert (Z0 : (fdiv (f_of_Z 1) (B754_infinity false) : f32) = B754_zero false) by (vm_compute; reflexivity). rewrite Z0. split; [reflexivity|]. cbn [B2R]. rewrite Rabs_R0. lra. }
  destruct (is_finite E) eqn:FE.
  2:{ destruct E as [s|s| |s m e Hb]; try discriminate FE; [|vm_compute in H; discriminate H].
      destruct s; [vm_compute in H; discriminate H|]. apply OV. vm_compute. reflexivity. }
  apply (fle32 _ _ F80 FE) in H. rewrite V80 in H.
  pose proof (Bplus_correct 24 128 _ _ mode_NE (f_of_Z 1) E F1 FE) as C. simpl round_mode in C. rewrite V1 in C.
  assert (PE : 0 < bpow radix2 80) by apply bpow_gt_0.
  destruct (Rlt_bool _ _).
  - destruct C as (C1 & C2 & _). change (B2R (fadd (f_of_Z 1) E) = round radix2 (SpecFloat.fexp 24 128) ZnearestE (1 + B2R E)) in C1.
    assert (PA : bpow radix2 80 <= B2R (fadd (f_of_Z 1) E : f32)).
    { rewrite C1. apply round_ge_generic; auto with typeclass_instances; [|lra].
      rewrite <- V80. apply (generic_format_B2R 24 128). }
    set (a := fadd (f_of_Z 1) E : f32) in *.
    assert (IA : 0 < / B2R a <= bpow radix2 (-80)).
    { split; [apply Rinv_0_lt_compat; lra|]. change (-80)%Z with (- (80))%Z. rewrite bpow_opp. apply Rinv_le; lra. }
    assert (B80 : bpow radix2 (-80) <= 1) by (change 1 with (bpow radix2 0); apply bpow_le; lia).
    destruct (fdiv32g (f_of_Z 1) a F1) as (Fy & e2 & eta & U2 & U3 & Vy). { lra. }
    { rewrite V1. unfold Rdiv. rewrite Rmult_1_l, Rabs_pos_eq by lra. assert (1 <= bpow radix2 126) by (change 1 with (bpow radix2 0); apply bpow_le; lia). lra. }
    split; [exact Fy|]. rewrite Vy, V1. unfold Rdiv. rewrite Rmult_1_l. eapply Rle_trans; [apply Rabs_triang|]. rewrite Rabs_mult, (Rabs_pos_eq (/ B2R a)) by lra.
    assert (P2 : Rabs (1 + e2) <= 3 / 2) by (eapply Rle_trans; [apply Rabs_triang|]; rewrite Rabs_R1; lra).
    assert (/ B2R a * Rabs (1 + e2) <= bpow radix2 (-80) * (3 / 2)) by (apply Rmult_le_compat; try lra; apply Rabs_pos).
    assert (bpow radix2 (-150) <= bpow radix2 (-81)) by (apply bpow_le; lia).
    assert (E81 : bpow radix2 (-80) = 2 * bpow radix2 (-81)) by (change 2 with (bpow radix2 1); rewrite <- bpow_plus; reflexivity).
    assert (E80 : bpow radix2 (-79) = 2 * bpow radix2 (-80)) by (change 2 with (bpow radix2 1); rewrite <- bpow_plus; reflexivity).
    lra.
  - apply OV. destruct C as [C _]. assert (SG : Bsign (f_of_Z 1 : f32) = false) by (vm_compute; reflexivity). rewrite SG in C.
    change (binary_overflow 24 128 mode_NE false) with (SpecFloat.S754_infinity false) in C.
    change (B2SF (fadd (f_of_Z 1) E : f32) = SpecFloat.S754_infinity false) in C.
    destruct (fadd (f_of_Z 1) E : f32) as [s|s| |s m e Hb]; try discriminate C. cbn in C. now injection C as ->.
Qed.

Lemma sigma32 (ef : f32 -> f32) ge (v : f32) : @expf_ok ef ge -> 0 <= ge <= / 4 -> is_finite v = true ->
  let y := fdiv (f_of_Z 1) (fadd (f_of_Z 1) (ef (Bopp v))) : f32 in
  is_finite y = true /\ Rabs (B2R y - sigma (B2R v)) <= ge + 4 * u24.
Proof.
  intros EF GE Fv. cbv zeta. assert (Fo : is_finite (Bopp v) = true) by now rewrite is_finite_Bopp.
  destruct (EF (Bopp v) Fo) as (H1 & H2 & H3). rewrite B2R_Bopp in *. set (E := ef (Bopp v)) in *. clearbody E. set (w := B2R v) in *.
  assert (T79 : 4 * bpow radix2 (-80) <= / 2 * u24).
  { change 4 with (bpow radix2 2). change u24 with (bpow radix2 (-24)). change (/ 2) with (bpow radix2 (-1)). rewrite <- !bpow_plus. apply bpow_le. lia. }
  assert (E80 : bpow radix2 (-79) = 2 * bpow radix2 (-80)) by (change 2 with (bpow radix2 1); rewrite <- bpow_plus; reflexivity).
  assert (P80 : 0 < bpow radix2 (-80)) by apply bpow_gt_0.
  pose proof exp64_lo as XL. pose proof exp64_hi as XH.
  assert (P80' : 0 < bpow radix2 80) by apply bpow_gt_0.
  assert (N64 : exp (-64) <= bpow radix2 (-80)).
  { replace (-64) with (- (64)) by ring. rewrite exp_Ropp. change (-80)%Z with (- (80))%Z. rewrite bpow_opp. apply Rinv_le; lra. }
  destruct (Rle_dec (Rabs (- w)) 64) as [LE|GT].
  - destruct (H1 LE) as [FE VE]. clear H1 H2 H3. set (x := exp (- w)) in *. assert (PX : 0 < x) by apply exp_pos.
    assert (XU : x <= bpow radix2 102).
    { unfold x. eapply Rle_trans; [|exact XH]. assert (- w <= 64) by (eapply Rle_trans; [apply Rle_abs|exact LE]).
      destruct (Rle_lt_or_eq_dec _ _ H) as [L|L]; [left; now apply exp_increasing|rewrite L; lra]. }
    apply Rabs_le_inv in VE.
    assert (BE : 0 <= B2R E <= bpow radix2 110).
    { split; [nra|]. apply Rle_trans with (2 * bpow radix2 102); [nra|]. change 2 with (bpow radix2 1). rewrite <- bpow_plus. apply bpow_le. lia. }
    destruct (inv_one_plus E FE BE) as [Fy Vy]. split; [exact Fy|].
    assert (Q : Rabs (/ (1 + B2R E) - sigma w) <= ge).
    { unfold sigma. fold x. replace (/ (1 + B2R E) - / (1 + x)) with ((x - B2R E) * (/ (1 + B2R E) * / (1 + x))) by (field; lra).
      rewrite Rabs_mult. assert (I1 : 0 < / (1 + B2R E) <= 1) by (split; [apply Rinv_0_lt_compat; lra|rewrite <- Rinv_1 at 2; apply Rinv_le; lra]).
      assert (I2 : 0 < / (1 + x)) by (apply Rinv_0_lt_compat; lra).
      rewrite (Rabs_pos_eq (/ (1 + B2R E) * / (1 + x))) by (apply Rmult_le_pos; lra).
      assert (Rabs (x - B2R E) <= ge * x) by (apply Rabs_le; lra).
      apply Rle_trans with ((ge * x) * (1 * / (1 + x))).
      - apply Rmult_le_compat; auto using Rabs_pos; [apply Rmult_le_pos; lra|]. apply Rmult_le_compat_r; lra.
      - replace (ge * x * (1 * / (1 + x))) with (ge * (x * / (1 + x))) by ring.
        assert (x * / (1 + x) <= 1) by (apply Rmult_le_reg_r with (1 + x); [lra|]; rewrite Rmult_assoc, Rinv_l by lra; lra).
        apply Rle_trans with (ge * 1); [apply Rmult_le_compat_l; lra|lra]. }
    replace (B2R (fdiv (f_of_Z 1) (fadd (f_of_Z 1) E) : f32) - sigma w) with
      ((B2R (fdiv (f_of_Z 1) (fadd (f_of_Z 1) E) : f32) - / (1 + B2R E)) + (/ (1 + B2R E) - sigma w)) by ring.
    eapply Rle_trans; [apply Rabs_triang|]. lra.
  - apply Rnot_le_lt in GT. destruct (Rle_dec (- w) 0) as [NEG|POS].
    + (* v > 64 *) rewrite Rabs_left1 in GT by lra. destruct (H3 ltac:(lra)) as [FE VE].
      destruct (inv_one_plus E FE) as [Fy Vy]. { split; [lra|]. eapply Rle_trans; [apply VE|]. apply bpow_le. lia. }
      split; [exact Fy|].
      assert (XS : exp (- w) <= bpow radix2 (-80)) by (eapply Rle_trans; [|exact N64]; left; apply exp_increasing; lra).
      pose proof (exp_pos (- w)) as PX. set (x := exp (- w)) in *.
      assert (Q : Rabs (/ (1 + B2R E) - sigma w) <= bpow radix2 (-80)).
      { unfold sigma. fold x. replace (/ (1 + B2R E) - / (1 + x)) with ((x - B2R E) * (/ (1 + B2R E) * / (1 + x))) by (field; lra).
        rewrite Rabs_mult. assert (I1 : 0 < / (1 + B2R E) <= 1) by (split; [apply Rinv_0_lt_compat; lra|rewrite <- Rinv_1 at 2; apply Rinv_le; lra]).
        assert (I2 : 0 < / (1 + x) <= 1) by (split; [apply Rinv_0_lt_compat; lra|rewrite <- Rinv_1 at 2; apply Rinv_le; lra]).
        assert (I3 : 0 <= / (1 + B2R E) * / (1 + x) <= 1) by nra.
        rewrite (Rabs_pos_eq (/ (1 + B2R E) * / (1 + x))) by lra.
        assert (Rabs (x - B2R E) <= bpow radix2 (-80)) by (apply Rabs_le; lra).
        apply Rle_trans with (bpow radix2 (-80) * 1); [apply Rmult_le_compat; auto using Rabs_pos; lra|lra]. }
      replace (B2R (fdiv (f_of_Z 1) (fadd (f_of_Z 1) E) : f32) - sigma w) with
        ((B2R (fdiv (f_of_Z 1) (fadd (f_of_Z 1) E) : f32) - / (1 + B2R E)) + (/ (1 + B2R E) - sigma w)) by ring.
      eapply Rle_trans; [apply Rabs_triang|]. lra.
    + (* v < -64 *) rewrite Rabs_pos_eq in GT by lra. destruct (inv_one_plus_big E (H2 GT)) as [Fy Vy]. split; [exact Fy|].
      assert (XL' : bpow radix2 80 <= exp (- w)) by (eapply Rle_trans; [exact XL|]; left; apply exp_increasing; lra).
      assert (S1 : 0 < sigma w <= bpow radix2 (-80)).
      { split; [apply sigma_pos|]. unfold sigma. change (-80)%Z with (- (80))%Z. rewrite bpow_opp. apply Rinv_le; lra. }
      eapply Rle_trans; [apply Rabs_triang|]. rewrite Rabs_Ropp, (Rabs_pos_eq (sigma w)) by lra. lra.
Qed.
