(** The IIR filter in float32, over streams of any length. *)
From Coq Require Import ZArith List Bool Lia Reals Lra Psatz.
From Flocq Require Import Core BinarySingleNaN.
From Verif.Base Require Import Res CInt ListX Loops Float FloatOrder Arith Kernels.
From Verif.Model Require Import Common Iir.
From Verif.Spec Require Import IirSpec RoundingSpec IirErrSpec.
From Verif.Proof Require Import FloatMean FloatErr Iir.
Import ListNotations.
Open Scope R_scope.

(** *** Signals *)
Lemma at_Forall (P : R -> Prop) x n : Forall P x -> P 0 -> P (at_ x n).
Proof.
  intros F Z. unfold at_. destruct (n <? 0)%Z; auto. destruct (Nat.lt_ge_cases (Z.to_nat n) (length x)) as [L|L].
  - apply Forall_nth; auto.
  - now rewrite nth_overflow.
Qed.
Lemma at_bound x n D : Forall (fun v => Rabs v <= D) x -> 0 <= D -> Rabs (at_ x n) <= D.
Proof. intros F H. apply (at_Forall (fun v => Rabs v <= D)); auto. now rewrite Rabs_R0. Qed.
Lemma at_neg x n : (n < 0)%Z -> at_ x n = 0.
Proof. intros H. unfold at_. destruct (Z.ltb_spec n 0); [reflexivity|lia]. Qed.
Lemma at_map_seq (f : Z -> R) k n : (0 <= n < Z.of_nat k)%Z -> at_ (map (fun i => f (Z.of_nat i)) (seq 0 k)) n = f n.
Proof.
  intros H. unfold at_. destruct (Z.ltb_spec n 0); [lia|].
  rewrite (nth_indep _ 0 (f (Z.of_nat 0))) by (rewrite map_length, seq_length; lia).
  rewrite (map_nth (fun i => f (Z.of_nat i)) (seq 0 k) 0%nat). rewrite seq_nth by lia. f_equal. lia.
Qed.
Lemma Forall_at (P : R -> Prop) x : (forall n, (0 <= n < zlen x)%Z -> P (at_ x n)) -> Forall P x.
Proof.
  intros H. apply Forall_forall. intros v I. apply (In_nth _ _ 0) in I as (k & Hk & <-).
  specialize (H (Z.of_nat k)). unfold at_ in H. destruct (Z.ltb_spec (Z.of_nat k) 0); [lia|]. rewrite Nat2Z.id in H. apply H. unfold zlen. lia.
Qed.
Lemma at_ext x y : length x = length y -> (forall n, (0 <= n < zlen x)%Z -> at_ x n = at_ y n) -> x = y.
Proof.
  intros L H. apply (nth_ext x y 0 0 L). intros k Hk. specialize (H (Z.of_nat k)). unfold at_ in H.
  destruct (Z.ltb_spec (Z.of_nat k) 0); [lia|]. rewrite Nat2Z.id in H. apply H. unfold zlen. lia.
Qed.

(** *** Gains *)
Lemma gain_ge_1 s G : gain s G -> 1 <= G.
Proof.
  intros H. assert (S : section_of (mk_sos 1 0 0 1 (a1 s) (a2 s)) [1] [1]).
  { split; [reflexivity|]. intros n Hn. assert (n = 0%Z) as -> by (unfold zlen in Hn; simpl in Hn; lia). unfold at_. simpl. ring. }
  specialize (H [1] [1] 1 S). assert (F : Forall (fun v => Rabs v <= 1) [1]) by (constructor; [rewrite Rabs_R1; lra|constructor]).
  apply H in F. inversion F as [|? ? A _]; subst. rewrite Rabs_R1 in A. lra.
Qed.
(** The output of a section. *)
Lemma section_bound s G X x y : gain s G -> 0 <= X -> Forall (fun v => Rabs v <= X) x -> section_of s x y ->
  Forall (fun v => Rabs v <= G * (b_sum s * X)) y.
Proof.
  intros HG HX F [L H].
  set (f := fun n => b0 s * at_ x n + b1 s * at_ x (n - 1) + b2 s * at_ x (n - 2)).
  set (w := map (fun i => f (Z.of_nat i)) (seq 0 (length x))).
  assert (Lw : length w = length x) by (unfold w; rewrite map_length, seq_length; reflexivity).
  assert (B : forall n, Rabs (f n) <= b_sum s * X).
  { intros n. unfold f, b_sum. pose proof (at_bound x n X F HX). pose proof (at_bound x (n - 1) X F HX). pose proof (at_bound x (n - 2) X F HX).
    eapply Rle_trans; [apply Rabs_triang|]. rewrite !Rmult_plus_distr_r. apply Rplus_le_compat; [eapply Rle_trans; [apply Rabs_triang|]; apply Rplus_le_compat|];
      rewrite Rabs_mult; apply Rmult_le_compat_l; auto using Rabs_pos. }
  apply (HG w y (b_sum s * X)).
  - split; [congruence|]. intros n Hn. assert (Hn' : (0 <= n < zlen x)%Z) by (unfold zlen in *; rewrite Lw in Hn; exact Hn).
    rewrite (H n Hn'). unfold w. rewrite at_map_seq by (unfold zlen in Hn'; exact Hn'). cbn [b0 b1 b2 a1 a2]. unfold f. ring.
  - unfold w. apply Forall_forall. intros v I. apply in_map_iff in I as (i & <- & _). apply B.
Qed.
Lemma section_linear s x x' y y' : section_of s x y -> section_of s x' y' -> length x = length x' ->
  section_of s (map (fun '(a, b) => a - b) (combine x x')) (map (fun '(a, b) => a - b) (combine y y')).
Proof.
  intros [L H] [L' H'] E.
  assert (D : forall u v, length u = length v -> forall n, at_ (map (fun '(a, b) => a - b) (combine u v)) n = at_ u n - at_ v n).
  { intros u v Luv n. unfold at_. destruct (n <? 0)%Z; [ring|]. destruct (Nat.lt_ge_cases (Z.to_nat n) (length u)) as [C|C].
    - rewrite (nth_indep _ 0 ((fun '(a, b) => a - b) (0, 0))) by (rewrite map_length, combine_length; lia).
      rewrite (map_nth (fun '(a, b) => a - b) (combine u v) (0, 0)), combine_nth by exact Luv. reflexivity.
    - rewrite !nth_overflow; try ring; rewrite ?map_length, ?combine_length; lia. }
  split; [rewrite !map_length, !combine_length; lia|]. intros n Hn.
  assert (Hx : (0 <= n < zlen x)%Z) by (unfold zlen in *; rewrite map_length, combine_length in Hn; lia).
  rewrite !D by congruence. rewrite (H n Hx), (H' n) by (unfold zlen in *; lia). ring.
Qed.

(** *** One section *)
Section One.
Variables (ef lf tf : f32 -> f32).
Let A := f32_arith ef lf tf.
Fixpoint runsec (s : sos f32) (st : f32 * f32) (xs : list f32) : list f32 * (f32 * f32) :=
  match xs with
  | [] => ([], st)
  | x :: xs => let '(y, st1) := bq A s st x in let '(ys, st2) := runsec s st1 xs in (y :: ys, st2)
  end.
Lemma runsec_snoc s st xs x : runsec s st (xs ++ [x]) =
  let '(ys, st1) := runsec s st xs in let '(y, st2) := bq A s st1 x in (ys ++ [y], st2).
Proof.
  revert st. induction xs as [|a xs IH]; intros st.
  - cbn [app runsec]. destruct (bq A s st x). reflexivity.
  - cbn [app runsec]. destruct (bq A s st a) as [y st1]. rewrite IH. destruct (runsec s st1 xs) as [ys st2]. destruct (bq A s st2 x). reflexivity.
Qed.
Lemma runsec_length s st xs : length (fst (runsec s st xs)) = length xs.
Proof. revert st. induction xs as [|a xs IH]; intros st; [reflexivity|]. cbn [runsec]. destruct (bq A s st a) as [y st1]. specialize (IH st1). destruct (runsec s st1 xs). cbn [fst length] in *. congruence. Qed.

Variable s : sos f32.
Hypothesis (Fb0 : is_finite (b0 s) = true) (Fb1 : is_finite (b1 s) = true) (Fb2 : is_finite (b2 s) = true)
  (Fa1 : is_finite (a1 s) = true) (Fa2 : is_finite (a2 s) = true).
Let B0 := B2R (b0 s). Let B1 := B2R (b1 s). Let B2 := B2R (b2 s). Let A1 := B2R (a1 s). Let A2 := B2R (a2 s).
Let rs := sos_map B2R s.
Variables (X W : R).
Hypothesis (X0 : 0 <= X) (W0 : 0 <= W).
(** m2, m1, m0: the sizes of the terms. *)
Let m2 := Rabs B2 * X + Rabs A2 * W + 2 * tiny32.
Let m1 := Rabs B1 * X + Rabs A1 * W + 2 * tiny32.
Let m0 := Rabs B0 * X + tiny32.
Let M := m0 + m1 + m2.
Hypothesis (MM : M <= bpow radix2 96).

Lemma rel3 : rel 3 <= 4 * u24 /\ rel 3 <= / 8 /\ rel 3 <= 25 / 8 * u24.
Proof. unfold rel. repeat split; lra. Qed.
Lemma parts : 0 <= m0 /\ 0 <= m1 /\ 0 <= m2.
Proof.
  pose proof tiny32_pos. assert (P : forall c, 0 <= Rabs c * X) by (intros; apply Rmult_le_pos; auto using Rabs_pos).
  assert (Q : forall c, 0 <= Rabs c * W) by (intros; apply Rmult_le_pos; auto using Rabs_pos).
  unfold m0, m1, m2. pose proof (P B0). pose proof (P B1). pose proof (P B2). pose proof (Q A1). pose proof (Q A2). lra.
Qed.
Lemma M_max : 64 * M <= 4 * max32.
Proof.
  assert (E : 4 * max32 = 64 * bpow radix2 96). { unfold max32. change 4 with (bpow radix2 2). change 64 with (bpow radix2 6). rewrite <- !bpow_plus. reflexivity. }
  lra.
Qed.
(** Products of a coefficient and a bounded float. *)
Lemma prod (c x : f32) (Z : R) : is_finite c = true -> is_finite x = true -> Rabs (B2R x) <= Z -> Rabs (B2R c) * Z <= M ->
  tracks 1 (Rabs (B2R c) * Z + tiny32) (B2R c * B2R x) (fmul c x).
Proof.
  intros Fc Fx Hx HM. pose proof M_max. pose proof max32_pos. pose proof parts.
  pose proof (tracks_exact c Fc) as K1. pose proof (tracks_exact x Fx) as K2.
  apply (tracks_weaken 0 0 _ Z) in K2; [|lia|exact Hx].
  pose proof (tracks_mul 0 0 _ _ _ _ c x K1 K2) as K. apply K; [simpl; lra|]. lra.
Qed.
(** A step: what is added to the exact recursion is small. *)
Lemma bq_step (p q x : f32) : is_finite p = true -> is_finite q = true -> is_finite x = true -> Rabs (B2R x) <= X ->
  Rabs (B2R p) <= 3 * M ->
  is_finite (fst (bq A s (p, q) x)) = true /\ Rabs (B2R (fst (bq A s (p, q) x)) - (B2R p + B0 * B2R x)) <= rel 3 * (Rabs (B2R p) + m0).
Proof.
  intros Fp Fq Fx Hx Hp. cbn [bq fst snd]. change (nadd A p (nmul A (b0 s) x)) with (fadd p (fmul (b0 s) x)).
  pose proof parts as (P0 & P1 & P2). pose proof M_max. pose proof max32_pos. pose proof tiny32_pos.
  assert (K0 : tracks 1 m0 (B0 * B2R x) (fmul (b0 s) x)). { apply prod; auto. fold B0. unfold M. unfold m0 at 1. lra. }
  pose proof (tracks_weaken 0 1 _ _ _ _ (tracks_exact p Fp) ltac:(lia) (Rle_refl _)) as Kp.
  assert (K : tracks 2 (Rabs (B2R p) + m0) (B2R p + B0 * B2R x) (fadd p (fmul (b0 s) x))).
  { apply tracks_add; auto; [simpl; lra|]. unfold M in *. lra. }
  apply (tracks_weaken 2 3 _ (Rabs (B2R p) + m0)) in K; [|lia|lra]. destruct K as (F & E & _). auto.
Qed.
Lemma bq_state (p q x : f32) : is_finite p = true -> is_finite q = true -> is_finite x = true -> Rabs (B2R x) <= X ->
  Rabs (B2R q) <= 2 * M ->
  let '(y, (p', q')) := bq A s (p, q) x in is_finite y = true -> Rabs (B2R y) <= W ->
  is_finite p' = true /\ is_finite q' = true /\
  Rabs (B2R p' - (B2R q + B1 * B2R x - A1 * B2R y)) <= rel 3 * (Rabs (B2R q) + m1) /\
  Rabs (B2R q' - (B2 * B2R x - A2 * B2R y)) <= rel 3 * m2.
Proof.
  intros Fp Fq Fx Hx Hq. destruct (bq A s (p, q) x) as [y [p' q']] eqn:EB. unfold bq in EB. cbn [fst snd] in EB. 
  change (nadd A p (nmul A (b0 s) x)) with (fadd p (fmul (b0 s) x)) in EB. set (y0 := fadd p (fmul (b0 s) x)) in EB.
  assert (Ey : y0 = y) by congruence.
  assert (Ep : fsub (fadd q (fmul (b1 s) x)) (fmul (a1 s) y0) = p') by exact (f_equal (fun r => fst (snd r)) EB).
  assert (Eq : fsub (fmul (b2 s) x) (fmul (a2 s) y0) = q') by exact (f_equal (fun r => snd (snd r)) EB).
  rewrite Ey in Ep, Eq. clear EB Ey y0. intros Fy Hy.
  pose proof parts as (P0 & P1 & P2). pose proof M_max. pose proof max32_pos. pose proof tiny32_pos.
  assert (Q1 : 0 <= Rabs B1 * X) by (apply Rmult_le_pos; auto using Rabs_pos). assert (Q2 : 0 <= Rabs B2 * X) by (apply Rmult_le_pos; auto using Rabs_pos).
  assert (R1 : 0 <= Rabs A1 * W) by (apply Rmult_le_pos; auto using Rabs_pos). assert (R2 : 0 <= Rabs A2 * W) by (apply Rmult_le_pos; auto using Rabs_pos).
  assert (T1 : tracks 1 (Rabs B1 * X + tiny32) (B1 * B2R x) (fmul (b1 s) x)) by (apply prod; auto; fold B1; unfold M; unfold m1 at 1; lra).
  assert (T2 : tracks 1 (Rabs B2 * X + tiny32) (B2 * B2R x) (fmul (b2 s) x)) by (apply prod; auto; fold B2; unfold M; unfold m2 at 1; lra).
  assert (T3 : tracks 1 (Rabs A1 * W + tiny32) (A1 * B2R y) (fmul (a1 s) y)) by (apply prod; auto; fold A1; unfold M; unfold m1 at 1; lra).
  assert (T4 : tracks 1 (Rabs A2 * W + tiny32) (A2 * B2R y) (fmul (a2 s) y)) by (apply prod; auto; fold A2; unfold M; unfold m2 at 1; lra).
  pose proof (tracks_weaken 0 1 _ _ _ _ (tracks_exact q Fq) ltac:(lia) (Rle_refl _)) as Kq.
  assert (T5 : tracks 2 (Rabs (B2R q) + (Rabs B1 * X + tiny32)) (B2R q + B1 * B2R x) (fadd q (fmul (b1 s) x))).
  { apply tracks_add; auto; [simpl; lra|]. unfold M, m1 in *. lra. }
  apply (tracks_weaken 1 2 _ (Rabs A1 * W + tiny32)) in T3; [|lia|lra].
  assert (T6 : tracks 3 (Rabs (B2R q) + (Rabs B1 * X + tiny32) + (Rabs A1 * W + tiny32)) (B2R q + B1 * B2R x - A1 * B2R y) p').
  { rewrite <- Ep. apply tracks_sub; auto; [simpl; lra|]. unfold M, m1 in *. lra. }
  assert (T7 : tracks 2 (Rabs B2 * X + tiny32 + (Rabs A2 * W + tiny32)) (B2 * B2R x - A2 * B2R y) q').
  { rewrite <- Eq. apply tracks_sub; auto; [simpl; lra|]. unfold M, m2 in *. lra. }
  apply (tracks_weaken 2 3 _ m2) in T7; [|lia|unfold m2; lra].
  apply (tracks_weaken 3 3 _ (Rabs (B2R q) + m1)) in T6; [|lia|unfold m1; lra].
  destruct T6 as (F6 & E6 & _), T7 as (F7 & E7 & _). auto.
Qed.

(** A bound on the recursion with what rounding adds. *)
Variable G : R.
Hypothesis (HG : gain rs G).
Let D := 25 / 2 * u24 * M.
Hypothesis (HW : G * (b_sum rs * X) + G * D <= W).

Definition Inv (xs : list f32) : Prop :=
  let '(ys, (p, q)) := runsec s (fzero, fzero) xs in
  let x := map B2R xs in let y := map B2R ys in let n := zlen xs in
  Forall (fun v => is_finite v = true /\ Rabs (B2R v) <= W) ys /\
  is_finite p = true /\ is_finite q = true /\
  Rabs (B2R q) <= 9 / 8 * m2 /\ Rabs (B2R p) <= 9 / 8 * (9 / 8 * m2 + m1) /\
  exists ds k l, length ds = length xs /\ Forall (fun v => Rabs v <= D) ds /\
    (forall i, (0 <= i < n)%Z -> at_ y i = B0 * at_ x i + B1 * at_ x (i - 1) + B2 * at_ x (i - 2) - A1 * at_ y (i - 1) - A2 * at_ y (i - 2) + at_ ds i) /\
    B2R q = B2 * at_ x (n - 1) - A2 * at_ y (n - 1) + k /\ Rabs k <= rel 3 * m2 /\
    B2R p = B1 * at_ x (n - 1) + B2 * at_ x (n - 2) - A1 * at_ y (n - 1) - A2 * at_ y (n - 2) + l /\
    Rabs l <= rel 3 * (9 / 8 * m2 + m1) + rel 3 * m2.

(** The difference from the exact section. *)
Lemma err_section x y ds z : length y = length x -> length ds = length x ->
  (forall i, (0 <= i < zlen x)%Z -> at_ y i = B0 * at_ x i + B1 * at_ x (i - 1) + B2 * at_ x (i - 2) - A1 * at_ y (i - 1) - A2 * at_ y (i - 2) + at_ ds i) ->
  section_of rs x z -> Forall (fun v => Rabs v <= D) ds -> forall i, (0 <= i < zlen x)%Z -> Rabs (at_ y i - at_ z i) <= G * D.
Proof using HG.
  intros Ly Ld H [Lz Hz] FD i Hi.
  set (f := fun n => at_ y n - at_ z n). set (u := map (fun i => f (Z.of_nat i)) (seq 0 (length x))).
  assert (AT : forall n, (n < zlen x)%Z -> at_ u n = at_ y n - at_ z n).
  { intros n Hn. destruct (Z.ltb_spec n 0) as [C|C]; [rewrite !at_neg by exact C; ring|]. unfold u. rewrite at_map_seq by (unfold zlen in Hn; lia). reflexivity. }
  assert (S : section_of (mk_sos 1 0 0 1 (a1 rs) (a2 rs)) ds u).
  { split; [unfold u; rewrite map_length, seq_length; congruence|]. intros n Hn. assert (Hn' : (0 <= n < zlen x)%Z) by (unfold zlen in *; lia).
    rewrite !AT by lia. rewrite (H n Hn'), (Hz n Hn'). cbn [b0 b1 b2 a1 a2 rs sos_map]. fold B0 B1 B2 A1 A2. ring. }
  pose proof (HG ds u D S FD) as F. rewrite <- AT by lia. apply at_bound; auto.
  pose proof (gain_ge_1 rs G HG) as G1. destruct ds as [|d ds]; [unfold zlen in Hi; simpl in Ld; lia|]. inversion FD as [|? ? Hd _]; subst.
  pose proof (Rabs_pos d). apply Rmult_le_pos; lra.
Qed.

Lemma inv_all xs : Forall (fun v => is_finite v = true /\ Rabs (B2R v) <= X) xs -> Inv xs.
Proof using HG HW X0 W0 MM Fb0 Fb1 Fb2 Fa1 Fa2.
  pose proof parts as (P0 & P1 & P2). pose proof rel3 as (R1 & R2 & R3). pose proof (rel_nonneg 3) as R0.
  assert (M0 : M = m0 + m1 + m2) by reflexivity.
  induction xs as [|x xs IH] using rev_ind; intros FX.
  - unfold Inv. cbn [runsec]. cbv zeta. split; [constructor|]. split; [reflexivity|]. split; [reflexivity|].
    cbn [B2R fzero]. rewrite Rabs_R0. split; [lra|]. split; [lra|].
    exists [], 0, 0. split; [reflexivity|]. split; [constructor|]. split; [intros i Hi; unfold zlen in Hi; simpl in Hi; lia|].
    change (zlen (@nil f32)) with 0%Z. rewrite !at_neg by lia. rewrite Rabs_R0.
    assert (0 <= rel 3 * m2) by (apply Rmult_le_pos; auto). assert (0 <= rel 3 * (9 / 8 * m2 + m1)) by (apply Rmult_le_pos; lra).
    split; [ring|]. split; [lra|]. split; [ring|lra].
  - apply Forall_app in FX as [FX Fx]. inversion Fx as [|? ? [Fxx Hx] _]; subst. specialize (IH FX).
    unfold Inv in *. rewrite runsec_snoc. destruct (runsec s (fzero, fzero) xs) as [ys [p q]] eqn:ER.
    assert (LY : length ys = length xs) by (pose proof (runsec_length s (fzero, fzero) xs) as L; rewrite ER in L; exact L).
    cbv zeta in IH. destruct IH as (FY & Fp & Fq & Hq & Hp & ds & k & l & Ld & FD & RE & Eq & Hk & Ep & Hl).
    pose proof (bq_step p q x Fp Fq Fxx Hx ltac:(lra)) as (Fy & Ey).
    pose proof (bq_state p q x Fp Fq Fxx Hx ltac:(lra)) as ST.
    destruct (bq A s (p, q) x) as [y [p' q']]. cbn [fst] in Fy, Ey. cbv zeta.
    set (dy := B2R y - (B2R p + B0 * B2R x)) in *. set (dn := dy + l).
    assert (Hdn : Rabs dn <= D).
    { eapply Rle_trans; [apply Rabs_triang|]. unfold D.
      assert (E1 : rel 3 * (Rabs (B2R p) + m0) + (rel 3 * (9 / 8 * m2 + m1) + rel 3 * m2) <= rel 3 * (4 * M)).
      { replace (rel 3 * (Rabs (B2R p) + m0) + (rel 3 * (9 / 8 * m2 + m1) + rel 3 * m2)) with (rel 3 * (Rabs (B2R p) + m0 + 9 / 8 * m2 + m1 + m2)) by ring.
        apply Rmult_le_compat_l; [exact R0|]. lra. }
      assert (E2 : rel 3 * (4 * M) <= 25 / 8 * u24 * (4 * M)) by (apply Rmult_le_compat_r; lra). lra. }
    set (X' := map B2R (xs ++ [x])). set (Y' := map B2R (ys ++ [y])).
    assert (LX' : length X' = length (xs ++ [x])) by (unfold X'; now rewrite map_length).
    assert (LY' : length Y' = length (xs ++ [x])) by (unfold Y'; rewrite map_length, !app_length, LY; reflexivity).
    assert (ZN : zlen (xs ++ [x]) = (zlen xs + 1)%Z) by (rewrite zlen_app; reflexivity).
    assert (AX : at_ X' (zlen xs) = B2R x). { unfold X'. rewrite map_app. replace (zlen xs) with (zlen (map B2R xs)) by (unfold zlen; now rewrite map_length). apply at_app_mid. }
    assert (AY : at_ Y' (zlen xs) = B2R y). { unfold Y'. rewrite map_app. replace (zlen xs) with (zlen (map B2R ys)) by (unfold zlen; now rewrite map_length, LY). apply at_app_mid. }
    assert (AX1 : forall i, (i < zlen xs)%Z -> at_ X' i = at_ (map B2R xs) i). { intros i Hi. unfold X'. rewrite map_app. apply at_app_l. unfold zlen in *. now rewrite map_length. }
    assert (AY1 : forall i, (i < zlen xs)%Z -> at_ Y' i = at_ (map B2R ys) i). { intros i Hi. unfold Y'. rewrite map_app. apply at_app_l. unfold zlen in *. now rewrite map_length, LY. }
    assert (AD : at_ (ds ++ [dn]) (zlen xs) = dn). { replace (zlen xs) with (zlen ds) by (unfold zlen; now rewrite Ld). apply at_app_mid. }
    assert (AD1 : forall i, (i < zlen xs)%Z -> at_ (ds ++ [dn]) i = at_ ds i). { intros i Hi. apply at_app_l. unfold zlen in *. now rewrite Ld. }
    assert (FD' : Forall (fun v => Rabs v <= D) (ds ++ [dn])) by (apply Forall_app; auto).
    assert (RE' : forall i, (0 <= i < zlen X')%Z -> at_ Y' i = B0 * at_ X' i + B1 * at_ X' (i - 1) + B2 * at_ X' (i - 2) - A1 * at_ Y' (i - 1) - A2 * at_ Y' (i - 2) + at_ (ds ++ [dn]) i).
    { intros i Hi. assert (Hi' : (0 <= i < zlen xs + 1)%Z) by (unfold zlen in Hi |- *; rewrite LX', app_length in Hi; simpl in Hi; lia).
      destruct (Z.eq_dec i (zlen xs)) as [->|N].
      - rewrite AX, AY, AD, !AX1, !AY1 by lia. unfold dn, dy. lra.
      - rewrite !AX1, !AY1, AD1 by lia. apply RE. lia. }
    assert (Wy : Rabs (B2R y) <= W).
    { assert (FX' : Forall (fun v => Rabs v <= X) X').
      { unfold X'. apply Forall_map. apply Forall_app. split; [|constructor; [exact Hx|constructor]]. eapply Forall_impl; [|exact FX]. intros v V. apply V. }
      pose proof (run1_section rs X') as SZ. set (z := run1 rs (0, 0) X') in *.
      pose proof (section_bound rs G X X' z HG X0 FX' SZ) as BZ.
      assert (LD' : length (ds ++ [dn]) = length X') by (rewrite LX', !app_length, Ld; reflexivity).
      assert (Zn : (0 <= zlen xs < zlen X')%Z) by (unfold zlen; rewrite LX', app_length; simpl; lia).
      pose proof (err_section X' Y' (ds ++ [dn]) z ltac:(congruence) LD' RE' SZ FD' (zlen xs) Zn) as EE. rewrite AY in EE.
      assert (ZB : Rabs (at_ z (zlen xs)) <= G * (b_sum rs * X)).
      { apply at_bound; auto. pose proof (gain_ge_1 rs G HG). apply Rmult_le_pos; [lra|]. apply Rmult_le_pos; [|exact X0].
        unfold b_sum. pose proof (Rabs_pos (b0 rs)). pose proof (Rabs_pos (b1 rs)). pose proof (Rabs_pos (b2 rs)). lra. }
      replace (B2R y) with ((B2R y - at_ z (zlen xs)) + at_ z (zlen xs)) by ring. eapply Rle_trans; [apply Rabs_triang|]. lra. }
    destruct (ST Fy Wy) as (Fp' & Fq' & Ep' & Eq'). clear ST.
    split; [apply Forall_app; split; [exact FY|constructor; [auto|constructor]]|]. split; [exact Fp'|]. split; [exact Fq'|].
    assert (S2 : Rabs (B2 * B2R x - A2 * B2R y) <= m2 - 2 * tiny32).
    { unfold m2, Rminus. eapply Rle_trans; [apply Rabs_triang|]. rewrite Rabs_Ropp, !Rabs_mult. pose proof (Rmult_le_compat_l _ _ _ (Rabs_pos B2) Hx). pose proof (Rmult_le_compat_l _ _ _ (Rabs_pos A2) Wy). lra. }
    assert (S1 : Rabs (B2R q + B1 * B2R x - A1 * B2R y) <= 9 / 8 * m2 + m1).
    { unfold m1, Rminus. eapply Rle_trans; [apply Rabs_triang|]. eapply Rle_trans; [apply Rplus_le_compat_r; apply Rabs_triang|]. rewrite Rabs_Ropp, !Rabs_mult.
      pose proof (Rmult_le_compat_l _ _ _ (Rabs_pos B1) Hx). pose proof (Rmult_le_compat_l _ _ _ (Rabs_pos A1) Wy). pose proof tiny32_pos. lra. }
    pose proof tiny32_pos as TP.
    assert (E3 : rel 3 * m2 <= / 8 * m2) by (apply Rmult_le_compat_r; lra).
    assert (E4 : rel 3 * (Rabs (B2R q) + m1) <= rel 3 * (9 / 8 * m2 + m1)) by (apply Rmult_le_compat_l; lra).
    assert (E5 : rel 3 * (9 / 8 * m2 + m1) <= / 8 * (9 / 8 * m2 + m1)) by (apply Rmult_le_compat_r; lra).
    split. { replace (B2R q') with ((B2R q' - (B2 * B2R x - A2 * B2R y)) + (B2 * B2R x - A2 * B2R y)) by ring. eapply Rle_trans; [apply Rabs_triang|]. lra. }
    split. { replace (B2R p') with ((B2R p' - (B2R q + B1 * B2R x - A1 * B2R y)) + (B2R q + B1 * B2R x - A1 * B2R y)) by ring. eapply Rle_trans; [apply Rabs_triang|]. lra. }
    exists (ds ++ [dn]), (B2R q' - (B2 * B2R x - A2 * B2R y)), ((B2R p' - (B2R q + B1 * B2R x - A1 * B2R y)) + k).
    split; [rewrite !app_length, Ld; reflexivity|]. split; [exact FD'|].
    split. { intros i Hi. apply RE'. unfold zlen. rewrite LX'. exact Hi. }
    rewrite ZN. replace (zlen xs + 1 - 1)%Z with (zlen xs) by lia. replace (zlen xs + 1 - 2)%Z with (zlen xs - 1)%Z by lia.
    rewrite AX, AY, AX1, AY1 by lia. split; [ring|]. split; [lra|]. split; [rewrite Eq; ring|].
    eapply Rle_trans; [apply Rabs_triang|]. lra.
Qed.
Lemma section_close xs z : Forall (fun v => is_finite v = true /\ Rabs (B2R v) <= X) xs -> section_of rs (map B2R xs) z ->
  let ys := fst (runsec s (fzero, fzero) xs) in
  Forall2 (fun y v => is_finite y = true /\ Rabs (B2R y - v) <= G * D) ys z.
Proof using HG HW X0 W0 MM Fb0 Fb1 Fb2 Fa1 Fa2.
  intros F SZ. pose proof (inv_all xs F) as I. unfold Inv in I. pose proof (runsec_length s (fzero, fzero) xs) as LY.
  destruct (runsec s (fzero, fzero) xs) as [ys [p q]]. cbn [fst] in *. cbv zeta in *.
  destruct I as (FY & _ & _ & _ & _ & ds & k & l & Ld & FD & RE & _).
  assert (LX : length (map B2R xs) = length xs) by apply map_length.
  pose proof (err_section (map B2R xs) (map B2R ys) ds z) as EE.
  assert (EE' : forall i, (0 <= i < zlen xs)%Z -> Rabs (at_ (map B2R ys) i - at_ z i) <= G * D).
  { intros i Hi. apply EE; auto; try (rewrite ?map_length; congruence); unfold zlen in *; rewrite map_length; auto. }
  assert (LZ : length z = length xs) by (destruct SZ as [SZ _]; congruence).
  clear - FY LY LZ EE'. revert xs LY LZ EE'. revert z. induction FY as [|y ys [Fy _] FY IH]; intros z xs LY LZ EE'.
  - destruct z; [constructor|simpl in *; lia].
  - destruct z as [|v z]; [simpl in *; lia|]. destruct xs as [|x xs]; [simpl in *; lia|]. constructor.
    + split; [exact Fy|]. specialize (EE' 0%Z). unfold at_ in EE'. simpl in EE'. apply EE'. unfold zlen. simpl. lia.
    + apply (IH z xs); [simpl in *; lia|simpl in *; lia|]. intros i Hi. specialize (EE' (i + 1)%Z).
      unfold at_ in *. destruct (Z.ltb_spec i 0); [lia|]. destruct (Z.ltb_spec (i + 1) 0); [lia|]. replace (Z.to_nat (i + 1)) with (Datatypes.S (Z.to_nat i)) in EE' by lia.
      simpl in EE'. apply EE'. unfold zlen in *. simpl. lia.
Qed.
End One.

Lemma Forall2_impl' {T U} (P Q : T -> U -> Prop) l m : (forall a b, P a b -> Q a b) -> Forall2 P l m -> Forall2 Q l m.
Proof. induction 2; constructor; auto. Qed.

(** *** Sections with their gains *)
Definition fin_sos (s : sos f32) : Prop := Forall (fun c => is_finite c = true) (sos_list s).
Section Cascade.
Variables (ef lf tf : f32 -> f32).
Let A := f32_arith ef lf tf.
Lemma b_sum_nonneg s : 0 <= b_sum s.
Proof. unfold b_sum. pose proof (Rabs_pos (b0 s)). pose proof (Rabs_pos (b1 s)). pose proof (Rabs_pos (b2 s)). lra. Qed.
Lemma a_sum_nonneg s : 0 <= a_sum s.
Proof. unfold a_sum. pose proof (Rabs_pos (a1 s)). pose proof (Rabs_pos (a2 s)). lra. Qed.
Lemma section32 s G X xs z : fin_sos s -> 0 <= X -> section_fits (sos_map B2R s) G X ->
  Forall (fun v => is_finite v = true /\ Rabs (B2R v) <= X) xs -> section_of (sos_map B2R s) (map B2R xs) z ->
  Forall2 (fun y v => is_finite y = true /\ Rabs (B2R y - v) <= section_err (sos_map B2R s) G X) (fst (runsec ef lf tf s (fzero, fzero) xs)) z.
Proof.
  intros FS X0 (HG & C1 & C2) FX SZ. set (rs := sos_map B2R s) in *.
  assert (F : is_finite (b0 s) = true /\ is_finite (b1 s) = true /\ is_finite (b2 s) = true /\ is_finite (a1 s) = true /\ is_finite (a2 s) = true).
  { unfold fin_sos, sos_list in FS. rewrite !Forall_cons_iff in FS. tauto. }
  destruct F as (F1 & F2 & F3 & F4 & F5).
  set (N := b_sum rs * X + 5 * tiny32) in *. pose proof tiny32_pos as TP. pose proof (b_sum_nonneg rs) as BP. pose proof (a_sum_nonneg rs) as AP.
  assert (BX : 0 <= b_sum rs * X) by (apply Rmult_le_pos; auto). assert (N0 : 0 <= N) by (unfold N; lra).
  pose proof (gain_ge_1 rs G HG) as G1. set (W := 2 * G * N).
  assert (W0 : 0 <= W) by (unfold W; apply Rmult_le_pos; lra).
  assert (EM : Rabs (B2R (b0 s)) * X + tiny32 + (Rabs (B2R (b1 s)) * X + Rabs (B2R (a1 s)) * W + 2 * tiny32) + (Rabs (B2R (b2 s)) * X + Rabs (B2R (a2 s)) * W + 2 * tiny32)
    = N * (1 + 2 * a_sum rs * G)).
  { unfold W, N, a_sum, b_sum. cbn [rs sos_map b0 b1 b2 a1 a2]. ring. }
  pose proof (section_close ef lf tf s F1 F2 F3 F4 F5 X W X0 W0) as SC. cbv zeta in SC. rewrite EM in SC. specialize (SC C2 G HG).
  assert (K1 : 0 <= 1 + 2 * a_sum rs * G). { assert (0 <= a_sum rs * G) by (apply Rmult_le_pos; lra). lra. }
  assert (K2 : 0 <= N * (1 + 2 * a_sum rs * G)) by (apply Rmult_le_pos; auto).
  eapply Forall2_impl'; [|apply SC; auto].
  - intros y v [Fy E]. split; [exact Fy|]. eapply Rle_trans; [exact E|]. unfold section_err. fold N.
    replace (13 * u24 * (G * (1 + 2 * a_sum rs * G)) * N) with (G * (13 * u24 * (N * (1 + 2 * a_sum rs * G)))) by ring.
    apply Rmult_le_compat_l; [lra|]. apply Rmult_le_compat_r; lra.
  - fold rs. assert (E1 : 25 / 2 * u24 * (N * (1 + 2 * a_sum rs * G)) <= N).
    { replace (25 / 2 * u24 * (N * (1 + 2 * a_sum rs * G))) with (N * (25 / 2 * u24 * (1 + 2 * a_sum rs * G))) by ring.
      rewrite <- (Rmult_1_r N) at 2. apply Rmult_le_compat_l; [exact N0|]. lra. }
    assert (E2 : G * (25 / 2 * u24 * (N * (1 + 2 * a_sum rs * G))) <= G * N) by (apply Rmult_le_compat_l; lra).
    assert (E3 : G * (b_sum rs * X) <= G * N) by (apply Rmult_le_compat_l; unfold N; lra). unfold W. lra.
Qed.

Lemma run_cons s ss st sts xs : fst (run A (s :: ss) (st :: sts) xs) = fst (run A ss sts (fst (runsec ef lf tf s st xs))).
Proof.
  revert st sts. induction xs as [|x xs IH]; intros st sts; [reflexivity|]. cbn [run casc runsec]. fold A.
  destruct (bq A s st x) as [y st']. destruct (casc A ss sts y) as [v sts'] eqn:EC. specialize (IH st' sts').
  destruct (run A (s :: ss) (st' :: sts') xs) as [ys s2]. destruct (runsec ef lf tf s st' xs) as [us s3]. cbn [fst run] in *. rewrite EC.
  destruct (run A ss sts' us) as [vs s4]. cbn [fst] in *. congruence.
Qed.
Lemma run_nil xs : fst (run A [] [] xs) = xs.
Proof. induction xs as [|x xs IH]; [reflexivity|]. cbn [run casc]. destruct (run A [] [] xs). cbn [fst] in *. congruence. Qed.

Lemma section_err_nonneg s G X : gain s G -> 0 <= X -> 0 <= section_err s G X.
Proof.
  intros HG HX. pose proof (gain_ge_1 s G HG). pose proof (a_sum_nonneg s). pose proof (b_sum_nonneg s). pose proof tiny32_pos.
  assert (0 <= a_sum s * G) by (apply Rmult_le_pos; lra). assert (0 <= b_sum s * X) by (apply Rmult_le_pos; lra).
  unfold section_err. apply Rmult_le_pos; [|lra]. apply Rmult_le_pos; [lra|]. apply Rmult_le_pos; lra.
Qed.
Theorem cascade_close ss : Forall fin_sos ss -> forall Gs X E xs x y, length Gs = length ss -> 0 <= X -> 0 <= E ->
  cascade_fits (combine (map (sos_map B2R) ss) Gs) X E ->
  Forall2 (fun a b => is_finite a = true /\ Rabs (B2R a - b) <= E) xs x -> Forall (fun b => Rabs b <= X) x ->
  cascade (map (sos_map B2R) ss) x y ->
  Forall2 (fun a b => is_finite a = true /\ Rabs (B2R a - b) <= cascade_err (combine (map (sos_map B2R) ss) Gs) X E)
    (fst (run A ss (repeat (fzero, fzero) (length ss)) xs)) y.
Proof.
  induction 1 as [|s ss FS FSS IH]; intros Gs X E xs x y LG X0 E0 CF FX HX CA.
  - cbn [map cascade repeat length] in *. subst y. rewrite run_nil. exact FX.
  - destruct Gs as [|G Gs]; [discriminate|]. cbn [map combine cascade_fits cascade_err cascade] in *. destruct CF as [SF CF]. destruct CA as (z & SZ & CA).
    cbn [length repeat]. rewrite run_cons. set (rs := sos_map B2R s) in *. destruct SF as (HG & C1 & C2).
    assert (X1 : 0 <= X + E) by lra. pose proof (gain_ge_1 rs G HG) as G1. pose proof (b_sum_nonneg rs) as BP.
    assert (LX : length xs = length x) by (clear -FX; induction FX; simpl; congruence).
    assert (FXB : Forall (fun v => is_finite v = true /\ Rabs (B2R v) <= X + E) xs).
    { clear -FX HX. induction FX as [|a b xs x [Fa Ha] FX IH]; [constructor|]. inversion HX; subst. constructor; [|auto]. split; [exact Fa|].
      replace (B2R a) with ((B2R a - b) + b) by ring. eapply Rle_trans; [apply Rabs_triang|]. lra. }
    pose proof (run1_section rs (map B2R xs)) as SZ'. set (z' := run1 rs (0, 0) (map B2R xs)) in *.
    pose proof (section32 s G (X + E) xs z' FS X1 (conj HG (conj C1 C2)) FXB SZ') as K.
    assert (LZ : length z = length x) by apply SZ. assert (LZ' : length z' = length x) by (destruct SZ' as [L _]; rewrite L, map_length; congruence).
    pose proof (section_linear rs _ _ _ _ SZ' SZ ltac:(rewrite map_length; congruence)) as SL.
    assert (FE : Forall (fun v => Rabs v <= E) (map (fun '(a, b) => a - b) (combine (map B2R xs) x))).
    { clear -FX. induction FX as [|a b xs x [_ Ha] FX IH]; [constructor|]. cbn [map combine]. constructor; auto. }
    pose proof (section_bound rs G E _ _ HG E0 FE SL) as BL.
    apply (IH Gs _ _ _ z y).
    + simpl in LG. lia.
    + apply Rmult_le_pos; [apply Rmult_le_pos; lra|exact X0].
    + pose proof (section_err_nonneg rs G (X + E) HG X1). assert (0 <= G * b_sum rs * E) by (apply Rmult_le_pos; [apply Rmult_le_pos; lra|exact E0]). lra.
    + exact CF.
    + assert (L2 : length z' = length z) by congruence. clear - K BL L2. revert z L2 BL.
      induction K as [|a b ys z' [Fa Ha] K IH]; intros z L2 BL; destruct z as [|c z]; try discriminate; [constructor|].
      cbn [combine map] in BL. apply Forall_cons_iff in BL as [B1 B2]. constructor; [|apply IH; auto]. split; [exact Fa|].
      replace (B2R a - c) with ((B2R a - b) + (b - c)) by ring. eapply Rle_trans; [apply Rabs_triang|].
      replace (G * b_sum rs * E) with (G * (b_sum rs * E)) by ring. apply Rplus_le_compat; [exact Ha|exact B1].
    + eapply Forall_impl; [|apply (section_bound rs G X x z HG X0 HX SZ)]. intros v V. rewrite Rmult_assoc. exact V.
    + exact CA.
Qed.

(** The filter itself. *)
Lemma states_zero32 n off (mem : list f32) : (0 <= off -> off + 4 * Z.of_nat n <= zlen mem ->
  (forall i, off <= i < off + 4 * Z.of_nat n -> zget mem i = Ret fzero) ->
  states_at A mem off (repeat (fzero, fzero) n))%Z.
Proof.
  revert off; induction n as [|n IH]; intros off O M H; [exact I|]. cbn [repeat states_at]. rewrite !H by lia. split; [reflexivity|]. split; [reflexivity|].
  apply IH; try lia. intros i Hi. apply H. lia.
Qed.
Theorem filter32 (ss : list (sos f32)) Gs X off (mem : list f32) (xs : list f32) y : (6 * zlen ss < 2 ^ 31)%Z -> region_ok A mem off (zlen ss) ->
  (forall i, (off <= i < off + 4 * zlen ss)%Z -> zget mem i = Ret fzero) ->
  Forall fin_sos ss -> length Gs = length ss -> 0 <= X -> cascade_fits (combine (map (sos_map B2R) ss) Gs) X 0 ->
  Forall (fun v => is_finite v = true /\ Rabs (B2R v) <= X) xs -> cascade (map (sos_map B2R) ss) (map B2R xs) y ->
  exists ys mem', feed A (filter_of A ss off) mem xs = Ret (ys, mem') /\
    Forall2 (fun a b => is_finite a = true /\ Rabs (B2R a - b) <= cascade_err (combine (map (sos_map B2R) ss) Gs) X 0) ys y.
Proof.
  intros B [O M] H FS LG X0 CF FX CA.
  pose proof (feed_ok A ss off B O xs [] (repeat (fzero, fzero) (List.length ss)) mem) as F.
  specialize (F ltac:(unfold zlen; now rewrite repeat_length)).
  specialize (F ltac:(apply states_zero32; unfold zlen in *; auto)). specialize (F M).
  pose proof (cascade_close ss FS Gs X 0 xs (map B2R xs) y LG X0 (Rle_refl 0) CF) as K.
  assert (F2 : Forall2 (fun a b => is_finite a = true /\ Rabs (B2R a - b) <= 0) xs (map B2R xs)).
  { clear -FX. induction FX as [|v xs [Fv _] FX IH]; constructor; auto. split; [exact Fv|]. rewrite Rminus_diag_eq, Rabs_R0 by reflexivity. lra. }
  assert (FB : Forall (fun b => Rabs b <= X) (map B2R xs)) by (apply Forall_map; eapply Forall_impl; [|exact FX]; intros v V; apply V).
  specialize (K F2 FB CA). destruct (run A ss (repeat (fzero, fzero) (length ss)) xs) as [ys sts']. destruct F as (mem' & E & _).
  exists ys, mem'. split; [exact E|]. exact K.
Qed.
End Cascade.
