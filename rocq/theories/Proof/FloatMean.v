(** Accuracy of a mean accumulated in float32. *)
From Coq Require Import ZArith List Bool Lia Reals Lra.
From Flocq Require Import Core BinarySingleNaN.
From Flocq.Prop Require Import Relative Plus_error.
From Verif.Base Require Import Res ListX Float Arith RealSum.
From Verif.Model Require Import TreesC.
From Verif.Spec Require Import RealSpec.
From Verif.Proof Require Import Vote TreesRegress.
Import ListNotations.
Open Scope Z_scope.

Notation u24 := (/ 16777216)%R.
#[local] Instance vexp24 : Valid_exp (SpecFloat.fexp 24 128) := FLT_exp_valid _ _.

Lemma fadd32 (s y : f32) : is_finite s = true -> is_finite y = true -> (Rabs (B2R s + B2R y) <= bpow radix2 126)%R ->
  is_finite (fadd s y) = true /\ exists eps, (Rabs eps <= u24)%R /\ B2R (fadd s y) = ((B2R s + B2R y) * (1 + eps))%R.
Proof.
  intros Fs Fy L.
  destruct (FLT_plus_error_N_ex radix2 (SpecFloat.emin 24 128) 24 (fun x => negb (Z.even x)) (B2R s) (B2R y)) as (eps & E1 & E2).
  { apply (generic_format_B2R 24 128 s). } { apply (generic_format_B2R 24 128 y). }
  assert (U : (Rabs eps <= u24)%R).
  { eapply Rle_trans; [exact E1|]. unfold u_ro. change (bpow radix2 (Z.opp 24 + 1)) with (/ 8388608)%R.
    replace (/ 2 * / 8388608)%R with u24 by field.
    assert (Q : (/ (1 + u24) <= 1)%R) by (pose proof (Rinv_le 1 (1 + u24) ltac:(lra) ltac:(lra)) as Q; rewrite Rinv_1 in Q; exact Q).
    unfold Rdiv. apply Rle_trans with (u24 * 1)%R; [apply Rmult_le_compat_l; lra|lra]. }
  pose proof (Bplus_correct 24 128 _ _ mode_NE s y Fs Fy) as C. simpl round_mode in C.
  change (round radix2 (SpecFloat.fexp 24 128) ZnearestE (B2R s + B2R y)) with
    (round radix2 (FLT_exp (SpecFloat.emin 24 128) 24) (Znearest (fun x => negb (Z.even x))) (B2R s + B2R y)) in C.
  rewrite E2 in C. rewrite Rlt_bool_true in C.
  - destruct C as (C1 & C2 & _). split; [exact C2|]. exists eps. split; [exact U|exact C1].
  - rewrite Rabs_mult. assert (Rabs (1 + eps) <= 2)%R.
    { eapply Rle_trans; [apply Rabs_triang|]. rewrite Rabs_R1. lra. }
    assert (bpow radix2 128 = 4 * bpow radix2 126)%R as -> by (change 4%R with (bpow radix2 2); rewrite <- bpow_plus; reflexivity).
    pose proof (bpow_gt_0 radix2 126). pose proof (Rabs_pos (B2R s + B2R y)).
    assert (Rabs (B2R s + B2R y) * Rabs (1 + eps) <= bpow radix2 126 * 2)%R by (apply Rmult_le_compat; auto; apply Rabs_pos). lra.
Qed.

Lemma fsum32 (ys : list f32) (B : R) : (0 <= B <= bpow radix2 100)%R -> Forall (fun y => is_finite y = true /\ (Rabs (B2R y) <= B)%R) ys ->
  forall i (s : f32) (r : R), 0 <= i -> i + zlen ys <= 8388608 -> is_finite s = true -> (Rabs (B2R s) <= 2 * IZR i * B)%R ->
   (Rabs (B2R s - r) <= IZR i * (IZR i + 1) * (B * u24))%R ->
   let s' := fold_left fadd ys s in let n := i + zlen ys in
   is_finite s' = true /\ (Rabs (B2R s') <= 2 * IZR n * B)%R /\
   (Rabs (B2R s' - (r + rsum (map B2R ys))) <= IZR n * (IZR n + 1) * (B * u24))%R.
Proof.
  intros HB F. induction F as [|y ys (Fy & By) F IH]; intros i s r Hi Hn Fs Bs Es; cbn zeta.
  - cbn [fold_left map]. change (rsum []) with 0%R. unfold zlen. cbn [length]. rewrite Z.add_0_r, Rplus_0_r. auto.
  - rewrite zlen_cons in *. pose proof (zlen_nonneg ys). cbn [fold_left map]. change (rsum (B2R y :: map B2R ys)) with (B2R y + rsum (map B2R ys))%R.
    assert (I8 : (0 <= IZR i <= 8388607)%R) by (split; [apply IZR_le; lia|apply IZR_le; lia]).
    pose proof (bpow_gt_0 radix2 100) as P100.
    assert (SY : (Rabs (B2R s + B2R y) <= (2 * IZR i + 1) * B)%R) by (eapply Rle_trans; [apply Rabs_triang|]; lra).
    assert (PB : (0 <= B)%R) by lra.
    assert (IB : (0 <= IZR i * B)%R) by (apply Rmult_le_pos; lra).
    assert (IB2 : (IZR i * B <= 8388607 * B)%R) by (apply Rmult_le_compat_r; lra).
    destruct (fadd32 s y Fs Fy) as (Ff & eps & Eu & Ef).
    { assert (bpow radix2 126 = 67108864 * bpow radix2 100)%R as -> by (change 67108864%R with (bpow radix2 26); rewrite <- bpow_plus; reflexivity). lra. }
    assert (EE : (Rabs ((B2R s + B2R y) * eps) <= (2 * IZR i + 1) * B * u24)%R).
    { rewrite Rabs_mult. apply Rmult_le_compat; auto; apply Rabs_pos. }
    assert (I1 : IZR (i + 1) = (IZR i + 1)%R) by (rewrite plus_IZR; reflexivity).
    replace (i + (1 + zlen ys)) with (i + 1 + zlen ys) by lia.
    replace (r + (B2R y + rsum (map B2R ys)))%R with ((r + B2R y) + rsum (map B2R ys))%R by ring.
    apply IH; [lia|lia|exact Ff| |].
    + rewrite Ef, I1. replace ((B2R s + B2R y) * (1 + eps))%R with ((B2R s + B2R y) + (B2R s + B2R y) * eps)%R by ring.
      eapply Rle_trans; [apply Rabs_triang|]. lra.
    + rewrite Ef, I1. replace ((B2R s + B2R y) * (1 + eps) - (r + B2R y))%R with ((B2R s - r) + (B2R s + B2R y) * eps)%R by ring.
      eapply Rle_trans; [apply Rabs_triang|].
      apply Rle_trans with (IZR i * (IZR i + 1) * (B * u24) + (2 * IZR i + 1) * B * u24)%R; [lra|].
      assert (0 <= B * u24)%R by lra. nra.
Qed.

Lemma fdiv32 (s : f32) (n : Z) : is_finite s = true -> 1 <= n <= 16777216 -> (Rabs (B2R s) <= bpow radix2 126)%R ->
  is_finite (fdiv s (f_of_Z n)) = true /\
  (Rabs (B2R (fdiv s (f_of_Z n)) - B2R s / IZR n) <= Rabs (B2R s) / IZR n * u24 + bpow radix2 (-150))%R.
Proof.
  intros Fs Hn L. destruct (@f_of_Z_exact 24 128 _ _ n ltac:(lia)) as [Vn Fn].
  assert (P1 : (1 <= IZR n)%R) by (apply (IZR_le 1); lia).
  pose proof (Bdiv_correct 24 128 _ _ mode_NE s (f_of_Z n)) as C. simpl round_mode in C. rewrite Vn in C. specialize (C ltac:(lra)).
  destruct (@error_N_FLT radix2 (SpecFloat.emin 24 128) 24 eq_refl (fun x => negb (Z.even x)) (B2R s / IZR n)) as (eps & eta & E1 & E2 & _ & E).
  change (round radix2 (FLT_exp (SpecFloat.emin 24 128) 24) (Znearest (fun x => negb (Z.even x))) (B2R s / IZR n))
    with (round radix2 (SpecFloat.fexp 24 128) ZnearestE (B2R s / IZR n)) in E.
  assert (E1' : (Rabs eps <= u24)%R) by (change (bpow radix2 (Z.opp 24 + 1)) with (/ 8388608)%R in E1; lra).
  assert (E2' : (Rabs eta <= bpow radix2 (-150))%R).
  { replace (bpow radix2 (-150)) with (/ 2 * bpow radix2 (SpecFloat.emin 24 128))%R; [exact E2|]. change (/ 2)%R with (bpow radix2 (-1)). rewrite <- bpow_plus. reflexivity. }
  set (x := (B2R s / IZR n)%R) in *. set (r := round radix2 (SpecFloat.fexp 24 128) ZnearestE x) in *.
  assert (IN : (0 < / IZR n <= 1)%R) by (split; [apply Rinv_0_lt_compat; lra|]; rewrite <- Rinv_1; apply Rinv_le; lra).
  assert (AX : Rabs x = (Rabs (B2R s) / IZR n)%R).
  { unfold x, Rdiv. now rewrite Rabs_mult, (Rabs_pos_eq (/ IZR n)) by lra. }
  assert (XL : (Rabs x <= bpow radix2 126)%R).
  { rewrite AX. unfold Rdiv. pose proof (Rabs_pos (B2R s)). pose proof (Rmult_le_compat_l (Rabs (B2R s)) (/ IZR n) 1 ltac:(lra) ltac:(lra)). lra. }
  assert (D : (Rabs (r - x) <= Rabs x * u24 + bpow radix2 (-150))%R).
  { rewrite E. replace (x * (1 + eps) + eta - x)%R with (x * eps + eta)%R by ring. eapply Rle_trans; [apply Rabs_triang|]. rewrite Rabs_mult.
    pose proof (Rmult_le_compat_l (Rabs x) _ _ (Rabs_pos x) E1'). lra. }
  assert (P150 : (bpow radix2 (-150) <= 1)%R) by (change 1%R with (bpow radix2 0); apply bpow_le; lia).
  rewrite Rlt_bool_true in C.
  - destruct C as (C1 & C2 & _). change (B2R (fdiv s (f_of_Z n)) = r) in C1. change (is_finite (fdiv s (f_of_Z n)) = is_finite s) in C2.
    split; [now rewrite C2|]. rewrite C1. rewrite <- AX. exact D.
  - replace r with (r - x + x)%R by ring. eapply Rle_lt_trans; [apply Rabs_triang|].
    assert (bpow radix2 128 = 4 * bpow radix2 126)%R as -> by (change 4%R with (bpow radix2 2); rewrite <- bpow_plus; reflexivity).
    assert (1 <= bpow radix2 126)%R by (change 1%R with (bpow radix2 0); apply bpow_le; lia). pose proof (Rabs_pos x). lra.
Qed.

Lemma f32_close (x : f64) : is_finite x = true -> (Rabs (B2R x) <= bpow radix2 126)%R ->
  is_finite (f32_of_f64 x) = true /\ (Rabs (B2R (f32_of_f64 x) - B2R x) <= Rabs (B2R x) * u24 + bpow radix2 (-150))%R.
Proof.
  intros F L.
  destruct (@error_N_FLT radix2 (SpecFloat.emin 24 128) 24 eq_refl (fun x => negb (Z.even x)) (B2R x)) as (eps & eta & E1 & E2 & _ & E).
  change (round radix2 (FLT_exp (SpecFloat.emin 24 128) 24) (Znearest (fun x => negb (Z.even x))) (B2R x))
    with (round radix2 (SpecFloat.fexp 24 128) ZnearestE (B2R x)) in E.
  assert (E1' : (Rabs eps <= u24)%R) by (change (bpow radix2 (Z.opp 24 + 1)) with (/ 8388608)%R in E1; lra).
  assert (E2' : (Rabs eta <= bpow radix2 (-150))%R).
  { replace (bpow radix2 (-150)) with (/ 2 * bpow radix2 (SpecFloat.emin 24 128))%R; [exact E2|]. change (/ 2)%R with (bpow radix2 (-1)). rewrite <- bpow_plus. reflexivity. }
  assert (D : (Rabs (round radix2 (SpecFloat.fexp 24 128) ZnearestE (B2R x) - B2R x) <= Rabs (B2R x) * u24 + bpow radix2 (-150))%R).
  { rewrite E. replace (B2R x * (1 + eps) + eta - B2R x)%R with (B2R x * eps + eta)%R by ring. eapply Rle_trans; [apply Rabs_triang|]. rewrite Rabs_mult.
    pose proof (Rmult_le_compat_l (Rabs (B2R x)) _ _ (Rabs_pos (B2R x)) E1'). lra. }
  assert (P150 : (bpow radix2 (-150) <= 1)%R) by (change 1%R with (bpow radix2 0); apply bpow_le; lia).
  destruct (f32_of_f64_correct x F) as [V Ff].
  { replace (rnd32 (B2R x)) with (rnd32 (B2R x) - B2R x + B2R x)%R by ring. eapply Rle_lt_trans; [apply Rabs_triang|].
    assert (bpow radix2 128 = 4 * bpow radix2 126)%R as -> by (change 4%R with (bpow radix2 2); rewrite <- bpow_plus; reflexivity).
    assert (1 <= bpow radix2 126)%R by (change 1%R with (bpow radix2 0); apply bpow_le; lia). pose proof (Rabs_pos (B2R x)).
    lra. }
  split; [exact Ff|]. rewrite V. exact D.
Qed.

(** The mean of values given as float32, and of doubles converted to float32. *)
Lemma mean32_gen (ys : list f32) (B : R) : (0 <= B <= bpow radix2 100)%R -> 1 <= zlen ys <= 8388608 ->
  Forall (fun y => is_finite y = true /\ (Rabs (B2R y) <= B)%R) ys ->
  let y := fdiv (fold_left fadd ys fzero) (f_of_Z (zlen ys)) in
  is_finite y = true /\
  (Rabs (B2R y - rsum (map B2R ys) / IZR (zlen ys)) <= (IZR (zlen ys) + 3) * B * u24 + bpow radix2 (-150))%R.
Proof.
  intros HB HN F. cbn zeta. pose proof (bpow_gt_0 radix2 100) as P100.
  destruct (fsum32 ys B HB F 0 fzero 0%R ltac:(lia) ltac:(lia) eq_refl) as (Fs & Bs & Es).
  { cbn. rewrite Rabs_R0. lra. } { cbn. rewrite Rminus_0_r, Rabs_R0. lra. }
  rewrite Z.add_0_l in *. set (n := zlen ys) in *. set (s := fold_left fadd ys fzero) in *.
  assert (N1 : (1 <= IZR n <= 8388608)%R) by (split; apply IZR_le; lia).
  rewrite Rplus_0_l in Es. set (r := rsum (map B2R ys)) in *.
  assert (BN : (IZR n * B <= 8388608 * bpow radix2 100)%R) by (apply Rmult_le_compat; lra).
  destruct (fdiv32 s n Fs ltac:(lia)) as [Fd Ed].
  { assert (bpow radix2 126 = 67108864 * bpow radix2 100)%R as -> by (change 67108864%R with (bpow radix2 26); rewrite <- bpow_plus; reflexivity). lra. }
  split; [exact Fd|]. set (y := B2R (fdiv s (f_of_Z n))) in *.
  assert (IN : (0 < / IZR n <= 1)%R) by (split; [apply Rinv_0_lt_compat; lra|]; rewrite <- Rinv_1; apply Rinv_le; lra).
  assert (S1 : (Rabs (B2R s) / IZR n <= 2 * B)%R).
  { apply Rle_trans with (2 * IZR n * B / IZR n)%R; [apply Rmult_le_compat_r; lra|]. right. field. lra. }
  assert (S2 : (Rabs (B2R s / IZR n - r / IZR n) <= (IZR n + 1) * (B * u24))%R).
  { replace (B2R s / IZR n - r / IZR n)%R with ((B2R s - r) * / IZR n)%R by (field; lra). rewrite Rabs_mult, (Rabs_pos_eq (/ IZR n)) by lra.
    apply Rle_trans with (IZR n * (IZR n + 1) * (B * u24) * / IZR n)%R; [apply Rmult_le_compat_r; lra|]. right. field. lra. }
  replace (y - r / IZR n)%R with ((y - B2R s / IZR n) + (B2R s / IZR n - r / IZR n))%R by ring.
  eapply Rle_trans; [apply Rabs_triang|]. lra.
Qed.

Lemma rsum_close {A} (f g : A -> R) (l : list A) (d : R) : Forall (fun a => (Rabs (f a - g a) <= d)%R) l ->
  (Rabs (rsum (map f l) - rsum (map g l)) <= IZR (zlen l) * d)%R.
Proof.
  induction 1 as [|a l H F IH]; cbn [map].
  - change (rsum []) with 0%R. rewrite Rminus_0_r, Rabs_R0. change (zlen (@nil A)) with 0. lra.
  - change (rsum (f a :: map f l)) with (f a + rsum (map f l))%R. change (rsum (g a :: map g l)) with (g a + rsum (map g l))%R.
    rewrite zlen_cons, plus_IZR. replace (f a + rsum (map f l) - (g a + rsum (map g l)))%R with ((f a - g a) + (rsum (map f l) - rsum (map g l)))%R by ring.
    eapply Rle_trans; [apply Rabs_triang|]. lra.
Qed.

Theorem mean32 (xs : list f64) (B : R) : (0 <= B <= bpow radix2 99)%R -> 1 <= zlen xs <= 8388608 ->
  Forall (fun x => is_finite x = true /\ (Rabs (B2R x) <= B)%R) xs ->
  let y := fdiv (fold_left fadd (map f32_of_f64 xs) fzero) (f_of_Z (zlen xs)) in
  is_finite y = true /\
  (Rabs (B2R y - rsum (map B2R xs) / IZR (zlen xs)) <= (IZR (zlen xs) + 5) * B * u24 + bpow radix2 (-140))%R.
Proof.
  intros HB HN F. cbn zeta. pose proof (bpow_gt_0 radix2 99) as P99.
  assert (P99' : (bpow radix2 99 <= bpow radix2 126)%R) by (apply bpow_le; lia).
  set (e := bpow radix2 (-150)). assert (Pe : (0 < e)%R) by apply bpow_gt_0.
  assert (Ee : (bpow radix2 (-140) = 1024 * e)%R) by (unfold e; change 1024%R with (bpow radix2 10); rewrite <- bpow_plus; reflexivity).
  assert (C : Forall (fun x => is_finite (f32_of_f64 x) = true /\ (Rabs (B2R (f32_of_f64 x) - B2R x) <= B * u24 + e)%R /\ (Rabs (B2R (f32_of_f64 x)) <= B * (1 + u24) + e)%R) xs).
  { eapply Forall_impl; [|exact F]. intros x (Fx & Bx). destruct (f32_close x Fx ltac:(lra)) as [Ff D]. fold e in D.
    split; [exact Ff|]. assert (D' : (Rabs (B2R (f32_of_f64 x) - B2R x) <= B * u24 + e)%R) by lra. split; [exact D'|].
    replace (B2R (f32_of_f64 x)) with ((B2R (f32_of_f64 x) - B2R x) + B2R x)%R by ring. eapply Rle_trans; [apply Rabs_triang|]. lra. }
  assert (e <= 1)%R by (unfold e; change 1%R with (bpow radix2 0); apply bpow_le; lia).
  assert (2 <= bpow radix2 99)%R by (change 2%R with (bpow radix2 1); apply bpow_le; lia).
  assert (bpow radix2 100 = 2 * bpow radix2 99)%R by (change 2%R with (bpow radix2 1); rewrite <- bpow_plus; reflexivity).
  destruct (mean32_gen (map f32_of_f64 xs) (B * (1 + u24) + e)) as [Fy Ey].
  { lra. } { rewrite zlen_map. exact HN. }
  { apply Forall_map. eapply Forall_impl; [|exact C]. cbn beta. tauto. }
  rewrite zlen_map in *. fold e in Ey. split; [exact Fy|]. rewrite map_map in Ey.
  assert (S1 : (Rabs (rsum (map (fun x => B2R (f32_of_f64 x)) xs) - rsum (map B2R xs)) <= IZR (zlen xs) * (B * u24 + e))%R).
  { apply rsum_close. eapply Forall_impl; [|exact C]. cbn beta. tauto. }
  set (n := IZR (zlen xs)) in *. assert (N1 : (1 <= n <= 8388608)%R) by (split; apply IZR_le; lia).
  assert (IN : (0 < / n <= 1)%R) by (split; [apply Rinv_0_lt_compat; lra|]; rewrite <- Rinv_1; apply Rinv_le; lra).
  set (r1 := rsum (map (fun x => B2R (f32_of_f64 x)) xs)) in *. set (r2 := rsum (map B2R xs)) in *.
  set (y := B2R (fdiv (fold_left fadd (map f32_of_f64 xs) fzero) (f_of_Z (zlen xs)))) in *.
  assert (S2 : (Rabs (r1 / n - r2 / n) <= B * u24 + e)%R).
  { replace (r1 / n - r2 / n)%R with ((r1 - r2) * / n)%R by (field; lra). rewrite Rabs_mult, (Rabs_pos_eq (/ n)) by lra.
    apply Rle_trans with (n * (B * u24 + e) * / n)%R; [apply Rmult_le_compat_r; lra|]. right. field. lra. }
  replace (y - r2 / n)%R with ((y - r1 / n) + (r1 / n - r2 / n))%R by ring. eapply Rle_trans; [apply Rabs_triang|].
  rewrite Ee.
  assert (NB : (n * (B * u24) <= 8388608 * (B * u24))%R) by (apply Rmult_le_compat_r; lra).
  assert (NE : (n * e <= 8388608 * e)%R) by (apply Rmult_le_compat_r; lra).
  replace ((n + 3) * (B * (1 + u24) + e) * u24)%R with ((n + 3) * B * u24 + (n * (B * u24) + 3 * (B * u24)) * u24 + (n * e + 3 * e) * u24)%R in Ey by ring.
  clear - Ey S2 NB NE Pe HB N1. assert (0 <= B * u24)%R by lra. lra.
Qed.
