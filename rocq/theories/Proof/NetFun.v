(** Proofs about networks: float argmax, exact activations, Keras, inline code, histories. *)
From Coq Require Import ZArith List Bool Lia String Reals Lra.
From Flocq Require Import Core BinarySingleNaN.
From Verif.Base Require Import Res CInt ListX Loops Float Arith Kernels.
From Verif.Model Require Import Common Net.
From Verif.Spec Require Import NetSpec RealSpec.
From Verif.Proof Require Import Net NetApi.
Import ListNotations.
Open Scope Z_scope.
Open Scope res_scope.

(** ** Order of float32 *)
Section FloatOrder.
Lemma nonfin (a : f32) : is_nan a = false -> is_finite a = false -> exists s, a = B754_infinity s.
Proof. destruct a as [ | | | ]; simpl; intros; try discriminate. eexists; reflexivity. Qed.
Lemma fltb_pinf (a : f32) : is_finite a = true -> fltb a (B754_infinity false) = true /\ fltb (B754_infinity false) a = false.
Proof. destruct a as [[]|[]| |[] ? ? ?]; simpl; intros; try discriminate; split; reflexivity. Qed.
Lemma fltb_ninf (a : f32) : is_finite a = true -> fltb a (B754_infinity true) = false /\ fltb (B754_infinity true) a = true.
Proof. destruct a as [[]|[]| |[] ? ? ?]; simpl; intros; try discriminate; split; reflexivity. Qed.
Lemma fltb_nan_r (a : f32) : fltb a B754_nan = false.
Proof. destruct a as [[]|[]| |[] ? ? ?]; reflexivity. Qed.

Ltac fin_or_inf a N := let F := fresh "F" in destruct (is_finite a) eqn:F;
  [|let s := fresh "s" in destruct (nonfin a N F) as [[] ->]].
Lemma fltb_ge_trans (a b c : f32) : is_nan a = false -> is_nan b = false -> is_nan c = false ->
  fltb a b = false -> fltb b c = false -> fltb a c = false.
Proof.
  intros Na Nb Nc H1 H2.
  fin_or_inf a Na; fin_or_inf b Nb; fin_or_inf c Nc;
    repeat match goal with
    | F : is_finite ?x = true |- _ =>
        first [ match goal with K : context [fltb x (B754_infinity false)] |- _ => rewrite (proj1 (fltb_pinf x F)) in K end
              | match goal with K : context [fltb (B754_infinity false) x] |- _ => rewrite (proj2 (fltb_pinf x F)) in K end
              | match goal with K : context [fltb x (B754_infinity true)] |- _ => rewrite (proj1 (fltb_ninf x F)) in K end
              | match goal with K : context [fltb (B754_infinity true) x] |- _ => rewrite (proj2 (fltb_ninf x F)) in K end
              | rewrite (proj1 (fltb_pinf x F)) | rewrite (proj2 (fltb_pinf x F))
              | rewrite (proj1 (fltb_ninf x F)) | rewrite (proj2 (fltb_ninf x F)) ] end;
    try discriminate; try reflexivity.
  destruct (fltb a c) eqn:Q; [|reflexivity]. apply (fltb_iff a c F F1) in Q.
  assert (~ (B2R a < B2R b)%R) by (intros K; apply (fltb_iff a b F F0) in K; congruence).
  assert (~ (B2R b < B2R c)%R) by (intros K; apply (fltb_iff b c F0 F1) in K; congruence). lra.
Qed.
Lemma fltb_asym (a b : f32) : fltb a b = true -> fltb b a = false.
Proof.
  intros H. destruct (is_nan a) eqn:Na. { destruct a; try discriminate; apply fltb_nan_r. }
  destruct (is_nan b) eqn:Nb. { destruct b; try discriminate. rewrite fltb_nan_r in H; discriminate. }
  fin_or_inf a Na; fin_or_inf b Nb; try reflexivity; try (apply fltb_pinf; assumption); try (apply fltb_ninf; assumption); try discriminate; try (simpl in H; discriminate).
  all: try (rewrite (proj1 (fltb_ninf a F)) in H; discriminate).
  all: try (rewrite (proj2 (fltb_pinf b F)) in H; discriminate).
  apply (fltb_iff a b F F0) in H. destruct (fltb b a) eqn:Q; [|reflexivity]. apply (fltb_iff b a F0 F) in Q. lra.
  rewrite (proj2 (fltb_pinf b F0)) in H; discriminate.
Qed.
Lemma usable_not_nan (v : f32) : fltb (B754_infinity true) v = true -> is_nan v = false.
Proof. destruct v; simpl; auto; discriminate. Qed.
End FloatOrder.

Theorem f32_argmax_ok ef lf tf (values : list f32) :
  exists r, eml_net_argmax (f32_arith ef lf tf) values (zlen values) = Ret r /\
    ((r = -1 /\ forall v, In v values -> fltb (B754_infinity true) v = false) \/
     (exists v, zget values r = Ret v /\ fltb (B754_infinity true) v = true /\
        (forall i w, zget values i = Ret w -> fltb v w = false) /\
        (forall i w, 0 <= i < r -> zget values i = Ret w -> fltb w v = true \/ is_nan w = true))).
Proof.
  destruct (argmax_ok (f32_arith ef lf tf) values (fun v => fltb (B754_infinity true) v = true)) as (r & E & H).
  - intros v _. destruct (fltb _ v); auto.
  - intros v _ H. exact H.
  - intros v _ H. change (fltb (B754_infinity true) v = false). destruct (fltb _ v); congruence.
  - intros m v _ _ Gm Gv. simpl. destruct (is_nan v) eqn:N. { destruct v; try discriminate. apply fltb_nan_r. }
    destruct (is_finite v) eqn:F. { destruct (fltb_ninf v F). congruence. }
    destruct (nonfin v N F) as [[] ->]; [|exfalso; apply Gv; reflexivity].
    apply fltb_asym. exact Gm.
  - intros a b c _ _ _ Ga Gb Gc. apply fltb_ge_trans; now apply usable_not_nan.
  - intros a b _ _ _ _. apply fltb_asym.
  - exists r. split; [exact E|]. destruct H as [(-> & H)|(v & E1 & G & H1 & H2)].
    + left. split; [auto|]. intros v Iv. specialize (H v Iv). destruct (fltb _ v); congruence.
    + right. exists v. split; [auto|]. split; [auto|]. split.
      * intros i w Ew. destruct (fltb (B754_infinity true) w) eqn:Q; [apply (H1 i w); auto|].
        destruct (is_nan w) eqn:N. { destruct w; try discriminate. apply fltb_nan_r. }
        destruct (is_finite w) eqn:F. { destruct (fltb_ninf w F). congruence. }
        destruct (nonfin w N F) as [[] ->]; [|discriminate]. apply fltb_asym. exact G.
      * intros i w Hi Ew. destruct (fltb (B754_infinity true) w) eqn:Q; [left; apply (H2 i w); auto|].
        destruct (is_nan w) eqn:N; [now right|left].
        destruct (is_finite w) eqn:F. { destruct (fltb_ninf w F). congruence. }
        destruct (nonfin w N F) as [[] ->]; [exact G|discriminate].
Qed.
Theorem f32_py_argmax_ok ef lf tf (s : list f32) : s <> [] -> Forall (fun v => is_nan v = false) s ->
  exists r, py_argmax (f32_arith ef lf tf) s = Ret r /\ first_max fltb s r.
Proof.
  intros NE H. rewrite Forall_forall in H. apply (py_argmax_ok (f32_arith ef lf tf)); auto.
  - intros a b c Ia Ib Ic. apply fltb_ge_trans; auto.
  - intros a b _ _. apply fltb_asym.
Qed.

(** ** Exact arithmetic *)
Section Exact.
Open Scope R_scope.
Lemma xltb_Fin a b : xltb (Fin a) (Fin b) = true <-> a < b.
Proof. simpl. destruct (Rlt_dec a b); split; intros; auto; try discriminate; contradiction. Qed.
Lemma vmax_Fin (xs : list R) (m : R) :
  exists M, fold_left (fun m v => if xltb m v then v else m) (map Fin xs) (Fin m) = Fin M.
Proof.
  revert m; induction xs as [|x xs IH]; intros m; simpl; [eauto|]. destruct (Rlt_dec m x); apply IH.
Qed.
Lemma vmax_real (xs : list R) : xs <> [] -> exists M, vmax real_arith (map Fin xs) = Fin M.
Proof. destruct xs as [|x xs]; [congruence|]. intros _. unfold vmax. simpl. apply vmax_Fin. Qed.
Lemma fold_sum_Fin (f : R -> R) (xs : list R) (a : R) :
  fold_left (fun s v => lift2 Rplus s (match v with Fin r => Fin (f r) | _ => NaN end)) (map Fin xs) (Fin a) = Fin (a + rsum (map f xs)).
Proof.
  revert a; induction xs as [|x xs IH]; intros a; simpl. { f_equal; lra. }
  rewrite IH. f_equal. lra.
Qed.
Lemma rsum_exp_pos (f : R -> R) xs : (forall x, 0 < f x) -> xs <> [] -> 0 < rsum (map f xs).
Proof.
  intros P. destruct xs as [|x xs]; [congruence|]. intros _. simpl.
  assert (0 <= rsum (map f xs)). { induction xs; simpl; [lra|]. specialize (P a). lra. } specialize (P x). lra.
Qed.
Lemma rsum_scale c (l : list R) : rsum (map (fun x => c * x) l) = c * rsum l.
Proof. induction l; simpl; [lra|]. rewrite IHl. lra. Qed.

Theorem softmax_real (xs : list R) : xs <> [] -> softmax real_arith (map Fin xs) = map Fin (rsoftmax xs).
Proof.
  intros NE. unfold softmax. destruct (vmax_real xs NE) as [M EM]. rewrite EM. simpl nexp. simpl nsub. simpl nadd. simpl nlog. simpl nzero.
  assert (ES : fold_left (fun s v => lift2 Rplus s (lift1 exp (lift2 Rminus v (Fin M)))) (map Fin xs) (Fin 0) = Fin (rsum (map (fun x => exp (x - M)) xs))).
  { transitivity (Fin (0 + rsum (map (fun x => exp (x - M)) xs))); [|f_equal; lra].
    rewrite <- fold_sum_Fin. apply fold_left_ext. intros a v. destruct v; reflexivity. }
  cbv zeta. rewrite ES. simpl lift1. simpl lift2. unfold rsoftmax. rewrite !map_map. apply map_ext. intros x. simpl. f_equal.
  set (S' := rsum (map (fun x => exp (x - M)) xs)).
  assert (SE : S' = exp (- M) * rsum (map exp xs)).
  { unfold S'. rewrite <- rsum_scale, map_map. f_equal. apply map_ext. intros y. rewrite <- exp_plus. f_equal. lra. }
  assert (SP : 0 < S') by (apply rsum_exp_pos; [intros; apply exp_pos|auto]).
  assert (TP : 0 < rsum (map exp xs)) by (apply rsum_exp_pos; [apply exp_pos|auto]).
  replace (x - (M + ln S')) with (x + (- M) + - ln S') by lra. rewrite !exp_plus, (exp_Ropp (ln S')), exp_ln by exact SP. rewrite SE.
  pose proof (exp_pos (- M)). field. split; apply Rgt_not_eq; lra.
Qed.
Theorem rsoftmax_spec (xs : list R) : xs <> [] ->
  Forall (fun p => 0 < p) (rsoftmax xs) /\ rsum (rsoftmax xs) = 1 /\
  (forall i j xi xj pi pj, zget xs i = Ret xi -> zget xs j = Ret xj ->
     zget (rsoftmax xs) i = Ret pi -> zget (rsoftmax xs) j = Ret pj -> (xi < xj <-> pi < pj)).
Proof.
  intros NE. assert (TP : 0 < rsum (map exp xs)) by (apply rsum_exp_pos; [apply exp_pos|auto]).
  unfold rsoftmax. set (T := rsum (map exp xs)) in *. split; [|split].
  - apply Forall_forall. intros p Hp. apply in_map_iff in Hp as (x & <- & _). apply Rdiv_lt_0_compat; [apply exp_pos|auto].
  - transitivity (rsum (map (fun x => / T * x) (map exp xs))).
    + rewrite map_map. f_equal. apply map_ext. intros x. unfold Rdiv. apply Rmult_comm.
    + rewrite rsum_scale. fold T. apply Rinv_l. lra.
  - intros i j xi xj pi pj Ei Ej. rewrite !zget_map, Ei, Ej. cbn [bind]. intros Hi Hj.
    injection Hi as <-. injection Hj as <-. split; intros L.
    + apply Rmult_lt_compat_r; [now apply Rinv_0_lt_compat|]. now apply exp_increasing.
    + unfold Rdiv in L. apply Rmult_lt_reg_r in L; [|now apply Rinv_0_lt_compat]. now apply exp_lt_inv.
Qed.
Theorem expit_real x : eml_net_expit real_arith (Fin x) = Fin (rlogistic x) /\ 0 < rlogistic x < 1.
Proof.
  pose proof (exp_pos (- x)). split.
  - unfold eml_net_expit, rlogistic. simpl. f_equal. unfold Rdiv. lra.
  - unfold rlogistic. split; [apply Rinv_0_lt_compat; lra|]. apply Rlt_le_trans with (/ 1); [apply Rinv_lt_contravar; lra|rewrite Rinv_1; lra].
Qed.
Theorem relu_real x : eml_net_relu real_arith (Fin x) = Fin (Rmax 0 x).
Proof. unfold eml_net_relu. simpl. unfold Rmax. destruct (Rle_dec x 0), (Rle_dec 0 x); auto; f_equal; lra. Qed.
Theorem tanh_real x : eml_net_tanh real_arith (Fin x) = Fin (tanh x) /\ -1 < tanh x < 1.
Proof.
  split; [reflexivity|]. unfold tanh, sinh, cosh. pose proof (exp_pos x). pose proof (exp_pos (- x)).
  assert (0 < exp x + exp (- x)) by lra.
  replace ((exp x - exp (- x)) / 2 / ((exp x + exp (- x)) / 2)) with ((exp x - exp (- x)) / (exp x + exp (- x))) by (field; lra).
  split.
  - apply Rmult_lt_reg_r with (exp x + exp (- x)); auto. unfold Rdiv. rewrite Rmult_assoc, Rinv_l by lra. lra.
  - apply Rmult_lt_reg_r with (exp x + exp (- x)); auto. unfold Rdiv. rewrite Rmult_assoc, Rinv_l by lra. lra.
Qed.
End Exact.
