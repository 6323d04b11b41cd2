(** Order of floats with infinities, saturation, and the error of a rounded product. *)
From Coq Require Import ZArith Reals Lia Lra Bool.
From Flocq Require Import Core BinarySingleNaN.
From Verif.Base Require Import Res Float.
Open Scope Z_scope.

(** r limited to [-m, m] *)
Definition clampR (m r : R) : R := Rmax (- m) (Rmin m r).
Lemma clampR_in m r : (Rabs r <= m)%R -> clampR m r = r.
Proof. intros H. apply Rabs_le_inv in H. unfold clampR. rewrite Rmin_right by lra. apply Rmax_right. lra. Qed.
Lemma clampR_hi m r : (0 <= m)%R -> (m <= r)%R -> clampR m r = m.
Proof. intros H0 H. unfold clampR. rewrite Rmin_left by lra. apply Rmax_right. lra. Qed.
Lemma clampR_lo m r : (0 <= m)%R -> (r <= - m)%R -> clampR m r = (- m)%R.
Proof. intros H0 H. unfold clampR. rewrite Rmin_right by lra. apply Rmax_left. lra. Qed.
Lemma clampR_bound m r : (0 <= m)%R -> (- m <= clampR m r <= m)%R.
Proof. intros H. unfold clampR. split; [apply Rmax_l|]. apply Rmax_lub; [lra|apply Rmin_l]. Qed.
Lemma clampR_le m r r' : (r <= r')%R -> (clampR m r <= clampR m r')%R.
Proof.
  intros H. unfold clampR. apply Rmax_lub; [apply Rmax_l|]. eapply Rle_trans; [|apply Rmax_r].
  apply Rmin_glb; [apply Rmin_l|]. eapply Rle_trans; [apply Rmin_r|exact H].
Qed.

Section Ord.
Context {prec emax : Z} {Hp : Prec_gt_0 prec} {Hm : Prec_lt_emax prec emax}.
Notation fl := (binary_float prec emax).
Notation fexp := (SpecFloat.fexp prec emax).
Notation rnd := (round radix2 fexp ZnearestE).
#[local] Instance vf : Valid_exp fexp.
Proof. apply FLT_exp_valid. exact Hp. Qed.

(** Order embedding of non-NaN floats in the reals. *)
Definition key (x : fl) : R :=
  match x with
  | B754_infinity true => (- bpow radix2 emax)%R
  | B754_infinity false => bpow radix2 emax
  | _ => B2R x
  end.
Lemma key_finite x : is_finite x = true -> key x = B2R x.
Proof. destruct x; try discriminate; reflexivity. Qed.
Lemma key_fin x : is_finite x = true -> (- bpow radix2 emax < key x < bpow radix2 emax)%R.
Proof.
  intros F. rewrite key_finite by exact F.
  pose proof (abs_B2R_lt_emax _ _ x) as H. apply Rabs_lt_inv in H. exact H.
Qed.
Lemma key_ltb (x y : fl) : is_nan x = false -> is_nan y = false -> fltb x y = Rlt_bool (key x) (key y).
Proof.
  intros Nx Ny. pose proof (bpow_gt_0 radix2 emax) as BP.
  assert (C : (is_finite x = true /\ is_finite y = true) \/ is_finite x = false \/ is_finite y = false)
    by (destruct (is_finite x), (is_finite y); auto).
  destruct C as [[Fx Fy]|C].
  - unfold fltb. rewrite (Bltb_correct _ _ x y Fx Fy). now rewrite !key_finite.
  - symmetry. unfold fltb.
    destruct x as [sx|sx| |sx mx ex Hx] eqn:Ex; try discriminate Nx;
    destruct y as [sy|sy| |sy my ey Hy] eqn:Ey; try discriminate Ny;
    try (destruct C as [C|C]; discriminate C).
    all: try (pose proof (key_fin y) as Ky; rewrite Ey in Ky; specialize (Ky eq_refl)).
    all: try (pose proof (key_fin x) as Kx; rewrite Ex in Kx; specialize (Kx eq_refl)).
    all: try destruct sx; try destruct sy; cbn in *; (apply Rlt_bool_true + apply Rlt_bool_false); lra.
Qed.
Lemma key_leb (x y : fl) : is_nan x = false -> is_nan y = false -> fleb x y = negb (fltb y x).
Proof.
  intros Nx Ny. unfold fleb, fltb, Bleb, Bltb, SpecFloat.SFltb, SpecFloat.SFleb.
  pose proof (Bcompare_swap _ _ x y) as H. unfold Bcompare in H. rewrite H.
  assert (E : SpecFloat.SFcompare (B2SF x) (B2SF y) <> None).
  { destruct x as [?|[]| |[] ? ? ?]; try discriminate Nx; destruct y as [?|[]| |[] ? ? ?]; try discriminate Ny; cbn;
      try discriminate; repeat match goal with |- context[match ?c with _ => _ end] => destruct c end; discriminate. }
  destruct (SpecFloat.SFcompare (B2SF x) (B2SF y)) as [[]|]; cbn; auto; congruence.
Qed.
Lemma key_eqb (x y : fl) : is_nan x = false -> is_nan y = false -> Beqb x y = fleb x y && fleb y x.
Proof.
  intros Nx Ny. unfold fleb, Bleb, Beqb, SpecFloat.SFeqb, SpecFloat.SFleb.
  pose proof (Bcompare_swap _ _ x y) as H. unfold Bcompare in H. rewrite H.
  destruct (SpecFloat.SFcompare (B2SF x) (B2SF y)) as [[]|]; cbn; auto.
Qed.
Lemma ltb_key (x y : fl) : is_nan x = false -> is_nan y = false -> (fltb x y = true <-> (key x < key y)%R).
Proof. intros Nx Ny. rewrite key_ltb by assumption. destruct (Rlt_bool_spec (key x) (key y)); split; intros; try lra; congruence. Qed.
Lemma leb_key (x y : fl) : is_nan x = false -> is_nan y = false -> (fleb x y = true <-> (key x <= key y)%R).
Proof.
  intros Nx Ny. rewrite key_leb by assumption. rewrite negb_true_iff, <- not_true_iff_false, ltb_key by assumption.
  split; lra.
Qed.

Lemma sign_R (x : fl) : is_finite x = true -> B2R x <> 0%R -> Bsign x = Rlt_bool (B2R x) 0.
Proof.
  intros F N. destruct x as [s|s| |s m e H]; try discriminate; [cbn in N; lra|]. cbn. symmetry.
  destruct s.
  - apply Rlt_bool_true. apply F2R_lt_0. reflexivity.
  - apply Rlt_bool_false. apply F2R_ge_0. cbn. lia.
Qed.

(** The rounded product, saturating at the infinities. *)
Lemma key_mul (x y : fl) : is_finite x = true -> is_finite y = true ->
  is_nan (fmul x y) = false /\ key (fmul x y) = clampR (bpow radix2 emax) (rnd (B2R x * B2R y)).
Proof.
  intros Fx Fy. unfold fmul. pose proof (Bmult_correct prec emax Hp Hm mode_NE x y) as C.
  simpl round_mode in C. destruct (Rlt_bool_spec (Rabs (rnd (B2R x * B2R y))) (bpow radix2 emax)) as [H|H].
  - destruct C as (C1 & C2 & C3). rewrite Fx, Fy in C2. split.
    + destruct (Bmult mode_NE x y); try discriminate; reflexivity.
    + rewrite key_finite by exact C2. rewrite C1. symmetry. apply clampR_in. now apply Rlt_le.
  - assert (N : (B2R x * B2R y <> 0)%R).
    { intros E. rewrite E, round_0 in H by auto with typeclass_instances. rewrite Rabs_R0 in H. pose proof (bpow_gt_0 radix2 emax). lra. }
    assert (Nx : B2R x <> 0%R) by (intros E; rewrite E in N; lra).
    assert (Ny : B2R y <> 0%R) by (intros E; rewrite E in N; lra).
    unfold binary_overflow in C. cbn in C.
    assert (E : Bmult mode_NE x y = B754_infinity (xorb (Bsign x) (Bsign y))).
    { destruct (Bmult mode_NE x y); cbn in C; try discriminate. now injection C as ->. }
    rewrite E. split; [reflexivity|]. rewrite !sign_R by assumption.
    pose proof (bpow_gt_0 radix2 emax) as BP.
    assert (V : forall a, (a <= 0)%R -> (rnd a <= 0)%R).
    { intros a Ha. apply round_le_generic; auto with typeclass_instances. apply generic_format_0. }
    pose proof (rnd_nonneg (prec:=prec) (emax:=emax)) as V'.
    destruct (Rlt_bool_spec (B2R x) 0) as [X|X]; destruct (Rlt_bool_spec (B2R y) 0) as [Y|Y]; cbn.
    + rewrite clampR_hi; auto; try lra. rewrite Rabs_pos_eq in H; auto. apply V'. nra.
    + rewrite clampR_lo; auto; try lra. rewrite Rabs_left1 in H; [lra|]. apply V. nra.
    + rewrite clampR_lo; auto; try lra. rewrite Rabs_left1 in H; [lra|]. apply V. nra.
    + rewrite clampR_hi; auto; try lra. rewrite Rabs_pos_eq in H; auto. apply V'. nra.
Qed.
Lemma key_mul_inf (s : fl) (b : bool) : is_finite s = true -> (0 < B2R s)%R -> fmul (B754_infinity b) s = B754_infinity b.
Proof.
  intros F P. destruct s as [?|?| |[] m e H]; try discriminate F.
  - cbn in P; lra.
  - exfalso. assert (B2R (B754_finite true m e H) < 0)%R by (apply F2R_lt_0; reflexivity). lra.
  - unfold fmul, Bmult. now rewrite xorb_false_r.
Qed.
Lemma key_mul_le (x y s : fl) : is_nan x = false -> is_nan y = false -> is_finite s = true -> (0 < B2R s)%R ->
  (key x <= key y)%R -> (key (fmul x s) <= key (fmul y s))%R.
Proof.
  intros Nx Ny Fs Ps H. pose proof (bpow_gt_0 radix2 emax) as BP.
  assert (K : forall z : fl, is_nan z = false -> (- bpow radix2 emax <= key z <= bpow radix2 emax)%R).
  { intros z Nz. destruct z as [?|[]| |? ? ? ?] eqn:E; try discriminate Nz; try (cbn; lra).
    rewrite <- E. pose proof (key_fin z) as Q. rewrite E in Q |- *. specialize (Q eq_refl). lra. }
  assert (KN : forall z : fl, is_nan z = false -> is_nan (fmul z s) = false).
  { intros z Nz. destruct (is_finite z) eqn:Fz.
    - now apply key_mul.
    - destruct z; try discriminate. rewrite key_mul_inf by assumption. reflexivity. }
  destruct (is_finite x) eqn:Fx; destruct (is_finite y) eqn:Fy.
  - rewrite (proj2 (key_mul x s Fx Fs)), (proj2 (key_mul y s Fy Fs)). apply clampR_le. apply rnd_le. rewrite !key_finite in H by assumption. nra.
  - destruct y as [?|[]| |? ? ? ?]; try discriminate.
    + pose proof (key_fin x Fx). cbn in H. lra.
    + rewrite (key_mul_inf s) by assumption. apply K. now apply KN.
  - destruct x as [?|[]| |? ? ? ?]; try discriminate.
    + rewrite (key_mul_inf s) by assumption. apply K. now apply KN.
    + pose proof (key_fin y Fy). cbn in H. lra.
  - destruct x as [?|?| |? ? ? ?]; try discriminate. destruct y as [?|?| |? ? ? ?]; try discriminate. rewrite !key_mul_inf by assumption. exact H.
Qed.

(** Truncating the rounded value moves it by less than one. *)
Lemma trunc_rnd_err (x : R) (m : Z) : 0 <= m < 2 ^ prec -> (Rabs x <= IZR m)%R -> (Rabs (IZR (Ztrunc (rnd x)) - x) < 1)%R.
Proof.
  intros Hmm H. apply Rabs_le_inv in H.
  assert (R1 : (- IZR m <= rnd x)%R). { rewrite <- opp_IZR. apply rnd_ge_int; [lia|]. rewrite opp_IZR. lra. }
  assert (R2 : (rnd x <= IZR m)%R) by (apply rnd_le_int; [lia|lra]).
  destruct (Rle_lt_dec 0 x) as [P|P].
  - assert (P' : (0 <= rnd x)%R) by now apply rnd_nonneg.
    rewrite Ztrunc_floor by exact P'. pose proof (Zfloor_lb (rnd x)) as L. pose proof (Zfloor_ub (rnd x)) as U.
    set (k := Zfloor (rnd x)) in *.
    assert (K : 0 <= k <= m).
    { split; [apply Zfloor_lub; exact P'|]. apply le_IZR. lra. }
    assert (x < IZR k + 1)%R.
    { rewrite <- plus_IZR. apply Rnot_le_lt. intros Q. apply (rnd_ge_int (prec:=prec) (emax:=emax)) in Q; [|lia]. rewrite plus_IZR in Q. lra. }
    assert (IZR k <= x + 1/2)%R.
    { destruct (Z.eq_dec k 0) as [->|NE]; [lra|].
      destruct (Rle_lt_dec (IZR k) (x + 1/2)); auto. exfalso.
      assert (x <= IZR (k - 1) + 1/2)%R by (rewrite minus_IZR; lra).
      (* the midpoint k - 1/2 would round below k only if representable; use half-ulp distance *)
      assert (Q : (Rabs (rnd x - x) <= Rabs (IZR (k - 1) - x))%R).
      { apply (round_N_pt radix2 fexp (fun z => negb (Z.even z)) x). apply int_format. lia. }
      destruct (Rle_lt_dec (IZR (k-1)) x) as [W|W].
      - rewrite (Rabs_left1 (IZR (k-1) - x)) in Q by lra. apply Rabs_le_inv in Q. rewrite minus_IZR in *. lra.
      - assert (rnd x <= IZR (k - 1))%R by (apply rnd_le_int; [lia|lra]). rewrite minus_IZR in *. lra. }
    apply Rabs_lt. lra.
  - assert (P' : (rnd x <= 0)%R).
    { apply round_le_generic; auto with typeclass_instances; [apply generic_format_0|lra]. }
    rewrite Ztrunc_ceil by exact P'. pose proof (Zceil_ub (rnd x)) as U. pose proof (Zceil_lb (rnd x)) as L.
    set (k := Zceil (rnd x)) in *.
    assert (K : - m <= k <= 0).
    { split; [apply le_IZR; rewrite opp_IZR; lra|]. apply le_IZR.
      destruct (Rle_lt_dec (IZR k) 0) as [W|W]; [exact W|]. assert (0 < k) by now apply lt_IZR. assert (1 <= IZR k)%R by (apply IZR_le; lia). lra. }
    assert (IZR k - 1 < x)%R.
    { rewrite <- minus_IZR. apply Rnot_le_lt. intros Q. apply (rnd_le_int (prec:=prec) (emax:=emax)) in Q; [|lia]. rewrite minus_IZR in Q. lra. }
    assert (x - 1/2 <= IZR k)%R.
    { destruct (Rle_lt_dec (x - 1/2) (IZR k)); auto. exfalso.
      assert (k + 1 <= 0). { assert (k < 0) by (apply lt_IZR; lra). lia. }
      assert (Q : (Rabs (rnd x - x) <= Rabs (IZR (k + 1) - x))%R).
      { apply (round_N_pt radix2 fexp (fun z => negb (Z.even z)) x). apply int_format. lia. }
      destruct (Rle_lt_dec x (IZR (k+1))) as [W|W].
      - rewrite (Rabs_pos_eq (IZR (k+1) - x)) in Q by lra. apply Rabs_le_inv in Q. rewrite plus_IZR in *. lra.
      - assert (IZR (k + 1) <= rnd x)%R by (apply rnd_ge_int; [lia|lra]). rewrite plus_IZR in *. lra. }
    apply Rabs_lt. lra.
Qed.
End Ord.
