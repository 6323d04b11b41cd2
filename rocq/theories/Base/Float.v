(** IEEE-754 binary32 and binary64 (Flocq), round to nearest even.

    FLT_EVAL_METHOD = 0 and no value-changing compiler optimisation is assumed for C code;
    numpy float64 arithmetic is binary64. NaN payloads are not modelled. *)
From Coq Require Import ZArith Reals Lia Lra Bool.
From Flocq Require Import Core BinarySingleNaN.
From Verif.Base Require Import Res.
Open Scope Z_scope.

#[global] Instance prec24 : Prec_gt_0 24 := eq_refl _.
#[global] Instance prec53 : Prec_gt_0 53 := eq_refl _.
#[global] Instance emax128 : Prec_lt_emax 24 128 := eq_refl _.
#[global] Instance emax1024 : Prec_lt_emax 53 1024 := eq_refl _.

Notation f32 := (binary_float 24 128).
Notation f64 := (binary_float 53 1024).

(** Generic operations on [binary_float prec emax]. *)
Section Ops.
Context {prec emax : Z} {Hp : Prec_gt_0 prec} {Hm : Prec_lt_emax prec emax}.
Notation fl := (binary_float prec emax).

Definition fadd : fl -> fl -> fl := Bplus mode_NE.
Definition fsub : fl -> fl -> fl := Bminus mode_NE.
Definition fmul : fl -> fl -> fl := Bmult mode_NE.
Definition fdiv : fl -> fl -> fl := Bdiv mode_NE.
Definition fsqrt : fl -> fl := Bsqrt mode_NE.
(** C comparisons: false when an operand is NaN. *)
Definition fltb : fl -> fl -> bool := Bltb.
Definition fleb : fl -> fl -> bool := Bleb.
Definition fzero : fl := B754_zero false.
(** Conversion of an integer. *)
Definition f_of_Z (z : Z) : fl := binary_normalize prec emax Hp Hm mode_NE z 0 false.
(** m * 2^e, correctly rounded (used for decimal-free constants). *)
Definition f_of_ZE (m e : Z) : fl := binary_normalize prec emax Hp Hm mode_NE m e false.
(** rint: round to nearest integer, ties to even (numpy.round with 0 decimals). *)
Definition frint : fl -> fl := Bnearbyint mode_NE.
(** Truncation towards zero, as an unbounded integer; 0 on NaN/inf (callers check). *)
Definition ftrunc : fl -> Z := Btrunc.
End Ops.

(** Conversion between formats (exact value, then rounding). *)
Definition f_convert {p1 e1 p2 e2 : Z} {Hp2 : Prec_gt_0 p2} {Hm2 : Prec_lt_emax p2 e2}
    (x : binary_float p1 e1) : binary_float p2 e2 :=
  match x with
  | B754_zero s => B754_zero s
  | B754_infinity s => B754_infinity s
  | B754_nan => B754_nan
  | B754_finite s m e _ =>
      binary_normalize p2 e2 Hp2 Hm2 mode_NE (cond_Zopp s (Zpos m)) e s
  end.
Definition f32_of_f64 (x : f64) : f32 := f_convert x.
Definition f64_of_f32 (x : f32) : f64 := f_convert x.

(** ---- lemmas ---- *)
Section Lemmas.
Context {prec emax : Z} {Hp : Prec_gt_0 prec} {Hm : Prec_lt_emax prec emax}.
Notation fl := (binary_float prec emax).
Notation fexp := (SpecFloat.fexp prec emax).
Notation rnd := (round radix2 fexp ZnearestE).

Lemma emax_pos : 0 < emax.
Proof. unfold Prec_gt_0, Prec_lt_emax in *. lia. Qed.

#[local] Instance valid_fexp : Valid_exp fexp.
Proof. apply FLT_exp_valid. exact Hp. Qed.

#[local] Instance monotone_fexp : Monotone_exp fexp.
Proof. apply FLT_exp_monotone. Qed.

Lemma emin_neg : SpecFloat.emin prec emax <= 0.
Proof. unfold SpecFloat.emin. unfold Prec_gt_0, Prec_lt_emax in *. lia. Qed.

(** Integers up to 2^prec are representable. *)
Lemma int_format (z : Z) : Z.abs z <= 2 ^ prec -> generic_format radix2 fexp (IZR z).
Proof.
  intros H.
  destruct (Z.eq_dec (Z.abs z) (2 ^ prec)) as [E|E].
  - assert (G : generic_format radix2 fexp (bpow radix2 prec)).
    { apply generic_format_bpow. unfold SpecFloat.fexp. pose proof emin_neg.
      unfold Prec_gt_0 in Hp. lia. }
    assert (E' : (IZR z = bpow radix2 prec \/ IZR z = - bpow radix2 prec)%R).
    { assert (B : bpow radix2 prec = IZR (2 ^ prec)).
      { rewrite <- IZR_Zpower; auto. unfold Prec_gt_0 in Hp; lia. }
      rewrite B, <- opp_IZR. destruct (Z.abs_spec z) as [[_ A]|[_ A]]; rewrite A in E.
      - left; f_equal; lia.
      - right; f_equal; lia. }
    destruct E' as [->| ->]; auto. now apply generic_format_opp.
  - apply generic_format_FLT. exists (Float radix2 z 0); simpl.
    + unfold F2R; simpl. lra.
    + change (Z.abs z < 2 ^ prec). lia.
    + exact emin_neg.
Qed.

Lemma rnd_int (z : Z) : Z.abs z <= 2 ^ prec -> rnd (IZR z) = IZR z.
Proof. intros. apply round_generic; auto with typeclass_instances. now apply int_format. Qed.

Lemma bpow_emax_gt (x : R) : (Rabs x <= IZR (2 ^ prec))%R -> (Rabs x < bpow radix2 emax)%R.
Proof.
  intros H. eapply Rle_lt_trans; [exact H|].
  change 2%Z with (radix_val radix2) at 1.
  rewrite IZR_Zpower by (unfold Prec_gt_0 in Hp; lia). apply bpow_lt. exact Hm.
Qed.

Lemma f_of_Z_exact (z : Z) : Z.abs z <= 2 ^ prec ->
  B2R (f_of_Z z : fl) = IZR z /\ is_finite (f_of_Z z : fl) = true.
Proof.
  intros H. unfold f_of_Z.
  pose proof (binary_normalize_correct prec emax Hp Hm mode_NE z 0 false) as C.
  simpl round_mode in C. unfold F2R in C; simpl in C. rewrite Rmult_1_r in C.
  rewrite rnd_int in C by auto. rewrite Rlt_bool_true in C.
  - destruct C as (C1 & C2 & _); auto.
  - apply bpow_emax_gt. rewrite <- abs_IZR. now apply IZR_le.
Qed.

Lemma fadd_int (x y : fl) (a b : Z) :
  is_finite x = true -> is_finite y = true -> B2R x = IZR a -> B2R y = IZR b ->
  Z.abs (a + b) <= 2 ^ prec ->
  B2R (fadd x y) = IZR (a + b) /\ is_finite (fadd x y) = true.
Proof.
  intros Fx Fy Ex Ey H. unfold fadd.
  pose proof (Bplus_correct prec emax Hp Hm mode_NE x y Fx Fy) as C.
  simpl round_mode in C. rewrite Ex, Ey, <- plus_IZR in C.
  rewrite rnd_int in C by auto. rewrite Rlt_bool_true in C.
  - destruct C as (C1 & C2 & _); auto.
  - apply bpow_emax_gt. rewrite <- abs_IZR. now apply IZR_le.
Qed.

Lemma fadd_correct (x y : fl) :
  is_finite x = true -> is_finite y = true -> (Rabs (B2R x + B2R y) <= IZR (2 ^ prec))%R ->
  B2R (fadd x y) = rnd (B2R x + B2R y) /\ is_finite (fadd x y) = true.
Proof.
  intros Fx Fy H. unfold fadd.
  pose proof (Bplus_correct prec emax Hp Hm mode_NE x y Fx Fy) as C.
  simpl round_mode in C. rewrite Rlt_bool_true in C.
  - destruct C as (C1 & C2 & _); auto.
  - apply bpow_emax_gt. apply abs_round_le_generic; auto with typeclass_instances.
    apply int_format. rewrite Z.abs_eq; [lia|]. apply Z.pow_nonneg; lia.
Qed.

Lemma rnd_nonneg (x : R) : (0 <= x)%R -> (0 <= rnd x)%R.
Proof. intros. apply round_ge_generic; auto with typeclass_instances. apply generic_format_0. Qed.

Lemma rnd_le_int (x : R) (z : Z) : Z.abs z <= 2 ^ prec -> (x <= IZR z)%R -> (rnd x <= IZR z)%R.
Proof. intros. apply round_le_generic; auto with typeclass_instances. now apply int_format. Qed.

Lemma rnd_ge_int (x : R) (z : Z) : Z.abs z <= 2 ^ prec -> (IZR z <= x)%R -> (IZR z <= rnd x)%R.
Proof. intros. apply round_ge_generic; auto with typeclass_instances. now apply int_format. Qed.

Lemma rnd_ge_bpow (x : R) (e : Z) : SpecFloat.emin prec emax + prec <= e -> (bpow radix2 e <= x)%R ->
  (bpow radix2 e <= rnd x)%R.
Proof.
  intros He H. apply round_ge_generic; auto with typeclass_instances.
  apply generic_format_bpow. unfold SpecFloat.fexp. unfold Prec_gt_0 in Hp. lia.
Qed.

Lemma fdiv_correct (x y : fl) :
  is_finite x = true -> B2R y <> 0%R -> (Rabs (B2R x / B2R y) <= IZR (2 ^ prec))%R ->
  B2R (fdiv x y) = rnd (B2R x / B2R y) /\ is_finite (fdiv x y) = true.
Proof.
  intros Fx Hy H. unfold fdiv.
  pose proof (Bdiv_correct prec emax Hp Hm mode_NE x y Hy) as C.
  simpl round_mode in C. rewrite Rlt_bool_true in C.
  - destruct C as (C1 & C2 & _). rewrite C2. auto.
  - apply bpow_emax_gt. apply abs_round_le_generic; auto with typeclass_instances.
    apply int_format. rewrite Z.abs_eq; [lia|]. apply Z.pow_nonneg; lia.
Qed.

Lemma fmul_correct (x y : fl) :
  is_finite x = true -> is_finite y = true -> (Rabs (B2R x * B2R y) <= IZR (2 ^ prec))%R ->
  B2R (fmul x y) = rnd (B2R x * B2R y) /\ is_finite (fmul x y) = true.
Proof.
  intros Fx Fy H. unfold fmul.
  pose proof (Bmult_correct prec emax Hp Hm mode_NE x y) as C.
  simpl round_mode in C. rewrite Rlt_bool_true in C.
  - destruct C as (C1 & C2 & _). rewrite C2, Fx, Fy. auto.
  - apply bpow_emax_gt. apply abs_round_le_generic; auto with typeclass_instances.
    apply int_format. rewrite Z.abs_eq; [lia|]. apply Z.pow_nonneg; lia.
Qed.

Lemma fltb_correct (x y : fl) : is_finite x = true -> is_finite y = true ->
  fltb x y = Rlt_bool (B2R x) (B2R y).
Proof. apply Bltb_correct. Qed.

Lemma fltb_iff (x y : fl) : is_finite x = true -> is_finite y = true ->
  (fltb x y = true <-> (B2R x < B2R y)%R).
Proof.
  intros Fx Fy. rewrite fltb_correct by auto. destruct (Rlt_bool_spec (B2R x) (B2R y)); split;
    auto; try discriminate; lra.
Qed.

Lemma rnd_le (x y : R) : (x <= y)%R -> (rnd x <= rnd y)%R.
Proof. apply round_le; auto with typeclass_instances. Qed.

Lemma rnd_err (x : R) : (Rabs (rnd x - x) <= / 2 * ulp radix2 fexp x)%R.
Proof. apply error_le_half_ulp. auto with typeclass_instances. Qed.

(** Below 1 the spacing is at most 2^-prec. *)
Lemma ulp_below_1 (x : R) : 3 <= emax -> (0 <= x < 1)%R -> (ulp radix2 fexp x <= bpow radix2 (- prec))%R.
Proof.
  intros He [H0 H1]. destruct H0 as [H0|<-].
  - rewrite ulp_neq_0 by lra. apply bpow_le. unfold cexp, SpecFloat.fexp.
    assert (mag radix2 x <= 0).
    { apply mag_le_bpow; [lra|]. rewrite Rabs_pos_eq by lra. simpl. lra. }
    pose proof emin_neg. unfold SpecFloat.emin in *. unfold Prec_gt_0, Prec_lt_emax in *. lia.
  - change fexp with (FLT_exp (SpecFloat.emin prec emax) prec).
    rewrite ulp_FLT_0; auto with typeclass_instances. apply bpow_le.
    unfold SpecFloat.emin. unfold Prec_gt_0, Prec_lt_emax in *. lia.
Qed.

(** Fractions k/n with n < 2^prec are separated by rounding. *)
Lemma rnd_frac_lt (k1 k2 n : Z) : 3 <= emax -> 0 <= k1 < k2 -> k2 <= n -> n < 2 ^ prec ->
  (rnd (IZR k1 / IZR n) < rnd (IZR k2 / IZR n))%R.
Proof.
  intros He H1 H2 H3.
  assert (Hn : (0 < IZR n)%R) by (apply IZR_lt; lia).
  set (x := (IZR k1 / IZR n)%R). set (y := (IZR k2 / IZR n)%R).
  assert (Hx : (0 <= x < 1)%R).
  { unfold x. split.
    - apply Rmult_le_pos; [apply IZR_le; lia|]. left. now apply Rinv_0_lt_compat.
    - apply Rmult_lt_reg_r with (IZR n); auto. unfold Rdiv. rewrite Rmult_assoc, Rinv_l by lra.
      rewrite Rmult_1_r, Rmult_1_l. apply IZR_lt; lia. }
  assert (Hd : (/ IZR n <= y - x)%R).
  { unfold x, y, Rdiv. rewrite <- Rmult_minus_distr_r, <- minus_IZR.
    rewrite <- (Rmult_1_l (/ IZR n)) at 1. apply Rmult_le_compat_r.
    - left; now apply Rinv_0_lt_compat.
    - apply IZR_le; lia. }
  assert (Hs : (bpow radix2 (- prec) < / IZR n)%R).
  { rewrite bpow_opp. apply Rinv_lt_contravar.
    - apply Rmult_lt_0_compat; auto. apply bpow_gt_0.
    - rewrite <- IZR_Zpower by (unfold Prec_gt_0 in Hp; lia). apply IZR_lt. exact H3. }
  assert (Hy1 : (y <= 1)%R).
  { unfold y. apply Rmult_le_reg_r with (IZR n); auto. unfold Rdiv.
    rewrite Rmult_assoc, Rinv_l by lra. rewrite Rmult_1_r, Rmult_1_l. apply IZR_le; lia. }
  pose proof (Rinv_0_lt_compat _ Hn) as Hin.
  pose proof (rnd_err x) as Ex. pose proof (ulp_below_1 x He Hx) as Ux.
  destruct Hy1 as [Hy1|Hy1].
  - pose proof (rnd_err y) as Ey. assert (Hy0 : (0 <= y < 1)%R) by lra.
    pose proof (ulp_below_1 y He Hy0) as Uy.
    apply Rabs_le_inv in Ex. apply Rabs_le_inv in Ey. lra.
  - rewrite Hy1 in *. assert (E1 : rnd 1 = 1%R).
    { apply (rnd_int 1). change (Z.abs 1) with 1.
      assert (0 < 2 ^ prec) by (apply Z.pow_pos_nonneg; unfold Prec_gt_0 in Hp; lia). lia. }
    rewrite E1. apply Rabs_le_inv in Ex. pose proof (bpow_gt_0 radix2 (- prec)). lra.
Qed.

Lemma fzero_correct : B2R (fzero : fl) = 0%R /\ is_finite (fzero : fl) = true.
Proof. auto. Qed.

(** Equality of floats from equality of values. *)
Lemma float_eq (x y : fl) : is_finite x = true -> is_finite y = true -> B2R x = B2R y ->
  Bsign x = Bsign y -> x = y.
Proof. intros. apply B2R_Bsign_inj; auto. Qed.
End Lemmas.
