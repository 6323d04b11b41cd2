(** Softmax: its dependence on its arguments, and its float32 evaluation. *)
From Coq Require Import ZArith List Bool Lia Reals Lra.
From Flocq Require Import Core BinarySingleNaN.
From Verif.Base Require Import Res ListX Loops Float FloatOrder Arith Kernels RealSum.
From Verif.Model Require Import Common Net.
From Verif.Spec Require Import RealSpec NetSpec RoundingSpec.
From Verif.Proof Require Import FloatMean FloatErr NetErr NetFun Logistic.
Import ListNotations.
Open Scope R_scope.

Lemma exp_lip a b : Rabs (exp a - exp b) <= exp (Rmax a b) * Rabs (a - b).
Proof.
  assert (MON : forall u v, u <= v -> exp u <= exp v) by (intros u v [H| ->]; [left; now apply exp_increasing|lra]).
  assert (G : forall a b, a < b -> Rabs (exp b - exp a) <= exp b * Rabs (b - a)).
  { clear a b. intros a b H. destruct (MVT_cor2 exp exp a b H) as (c & E & C). { intros c _. apply derivable_pt_lim_exp. }
    rewrite E, Rabs_mult. pose proof (exp_pos c). rewrite (Rabs_pos_eq (exp c)) by lra. apply Rmult_le_compat_r; [apply Rabs_pos|]. apply MON. lra. }
  destruct (Rtotal_order a b) as [H|[->|H]].
  - rewrite (Rabs_minus_sym (exp a)), (Rabs_minus_sym a), Rmax_right by lra. now apply G.
  - rewrite !Rminus_diag_eq, Rabs_R0 by reflexivity. lra.
  - rewrite Rmax_left by lra. now apply G.
Qed.
Lemma exp_mono u v : u <= v -> exp u <= exp v.
Proof. intros [H| ->]; [left; now apply exp_increasing|lra]. Qed.
Lemma exp_le_1 u : u <= 0 -> exp u <= 1.
Proof. intros H. rewrite <- exp_0. now apply exp_mono. Qed.
Lemma exp_half_le2 u : u <= / 2 -> exp u <= 2.
Proof.
  intros H. apply Rle_trans with (exp (/ 2)); [now apply exp_mono|].
  apply Rsqr_incr_0_var; [|lra]. unfold Rsqr. rewrite <- exp_plus. replace (/ 2 + / 2) with 1 by field. pose proof exp_le_3. lra.
Qed.
Lemma ln_lip a b : / 2 <= a -> / 2 <= b -> Rabs (ln a - ln b) <= 2 * Rabs (a - b).
Proof.
  assert (G : forall a b, / 2 <= a -> a < b -> Rabs (ln b - ln a) <= 2 * Rabs (b - a)).
  { clear. intros a b H L. destruct (MVT_cor2 ln Rinv a b L) as (c & E & C). { intros c Hc. apply derivable_pt_lim_ln. lra. }
    rewrite E, Rabs_mult. apply Rmult_le_compat_r; [apply Rabs_pos|]. assert (0 < / c <= 2).
    { split; [apply Rinv_0_lt_compat; lra|]. rewrite <- (Rinv_inv 2). apply Rinv_le; lra. }
    rewrite Rabs_pos_eq; lra. }
  intros Ha Hb. destruct (Rtotal_order a b) as [H|[->|H]].
  - rewrite (Rabs_minus_sym (ln a)), (Rabs_minus_sym a). now apply G.
  - rewrite !Rminus_diag_eq, Rabs_R0 by reflexivity. lra.
  - now apply G.
Qed.
Lemma ln_le_pred x : 0 < x -> ln x <= x - 1.
Proof.
  intros H. pose proof (exp_ineq1_le (ln x)) as E. rewrite exp_ln in E by exact H. lra.
Qed.

(** ** Dependence on the arguments *)
Lemma sumr_exp_between n (X X' : Z -> R) d : (forall j, (0 <= j < n)%Z -> Rabs (X j - X' j) <= d) ->
  forall c : Z -> bool, sumr n (fun j => if c j then exp (X' j) else 0) <= exp d * sumr n (fun j => if c j then exp (X j) else 0).
Proof.
  intros H c. rewrite <- sumr_scal. unfold sumr.
  assert (G : forall l, (forall j, In j l -> (0 <= j < n)%Z) -> rsum (map (fun j => if c j then exp (X' j) else 0) l) <= rsum (map (fun j => exp d * (if c j then exp (X j) else 0)) l)).
  { induction l as [|a l IH]; intros B; simpl; [lra|]. specialize (IH (fun j I => B j (or_intror I))). specialize (H a (B a (or_introl eq_refl))).
    destruct (c a); [|rewrite Rmult_0_r; lra]. apply Rplus_le_compat; [|exact IH]. rewrite <- exp_plus. apply exp_mono. apply Rabs_le_inv in H. lra. }
  apply G. intros j Hj. apply zrange_In in Hj. exact Hj.
Qed.
Lemma sumr_exp_pos n (X : Z -> R) : (1 <= n)%Z -> 0 < sumr n (fun j => exp (X j)).
Proof.
  intros H. replace n with ((n - 1) + 1)%Z by lia. rewrite sumr_S by lia. pose proof (exp_pos (X (n - 1)%Z)).
  assert (0 <= sumr (n - 1) (fun j => exp (X j))) by (apply sumr_nonneg; intros; left; apply exp_pos). lra.
Qed.
Lemma softmax_lip n (X X' : Z -> R) d i : (0 <= i < n)%Z -> (forall j, (0 <= j < n)%Z -> Rabs (X j - X' j) <= d) ->
  Rabs (exp (X i) / sumr n (fun j => exp (X j)) - exp (X' i) / sumr n (fun j => exp (X' j))) <= d / 2.
Proof.
  intros Hi H.
  assert (PD : 0 <= d). { eapply Rle_trans; [apply Rabs_pos|apply (H i Hi)]. }
  pose (rest := fun Y : Z -> R => sumr n (fun j => if negb (j =? i)%Z then exp (Y j) else 0)).
  assert (SP : forall Y, sumr n (fun j => exp (Y j)) = exp (Y i) + rest Y).
  { intros Y. unfold rest. replace (exp (Y i)) with (sumr n (fun j => if (j =? i)%Z then exp (Y j) else 0)).
    - rewrite <- sumr_plus. apply sumr_ext. intros j _. destruct (j =? i)%Z; simpl; lra.
    - rewrite (sumr_delta n i); [|exact Hi|intros j _ NE; destruct (Z.eqb_spec j i); [contradiction|reflexivity]]. now rewrite Z.eqb_refl. }
  assert (RP : forall Y, 0 <= rest Y).
  { intros Y. apply sumr_nonneg. intros j _. destruct (negb _); [left; apply exp_pos|lra]. }
  assert (R1 : rest X' <= exp d * rest X) by (apply (sumr_exp_between n X X' d H (fun j => negb (j =? i)%Z))).
  assert (R2 : rest X <= exp d * rest X').
  { apply (sumr_exp_between n X' X d). intros j Hj. rewrite Rabs_minus_sym. auto. }
  rewrite !SP. pose proof (exp_pos (X i)) as P1. pose proof (exp_pos (X' i)) as P2. pose proof (exp_pos d) as P3. pose proof (RP X) as Q1. pose proof (RP X') as Q2.
  destruct (Req_dec (rest X) 0) as [Z0|NZ].
  - rewrite Z0, Rmult_0_r in R1. assert (Z1 : rest X' = 0) by lra. rewrite Z0, Z1, !Rplus_0_r. unfold Rdiv at 1 2. rewrite !Rinv_r by lra. rewrite Rminus_diag_eq, Rabs_R0 by reflexivity. lra.
  - assert (PR : 0 < rest X) by lra. assert (PR' : 0 < rest X'). { destruct (Req_dec (rest X') 0) as [E|]; [rewrite E, Rmult_0_r in R2|]; lra. }
    assert (SG : forall Y, 0 < rest Y -> exp (Y i) / (exp (Y i) + rest Y) = sigma (Y i - ln (rest Y))).
    { intros Y P. unfold sigma. replace (- (Y i - ln (rest Y))) with (ln (rest Y) + - Y i) by ring. rewrite exp_plus, exp_ln by exact P. rewrite exp_Ropp.
      pose proof (exp_pos (Y i)). field. lra. }
    rewrite !SG by assumption. eapply Rle_trans; [apply sigma_lip|].
    assert (LL : Rabs (ln (rest X) - ln (rest X')) <= d).
    { apply Rabs_le. split.
      - assert (ln (rest X') <= ln (exp d * rest X)) by (destruct R1 as [R1| ->]; [left; now apply ln_increasing|lra]). rewrite ln_mult, ln_exp in H0 by assumption. lra.
      - assert (ln (rest X) <= ln (exp d * rest X')) by (destruct R2 as [R2|E]; [left; now apply ln_increasing|rewrite E; lra]). rewrite ln_mult, ln_exp in H0 by assumption. lra. }
    specialize (H i Hi). replace (X i - ln (rest X) - (X' i - ln (rest X'))) with ((X i - X' i) + - (ln (rest X) - ln (rest X'))) by ring.
    assert (Rabs ((X i - X' i) + - (ln (rest X) - ln (rest X'))) <= 2 * d) by (eapply Rle_trans; [apply Rabs_triang|]; rewrite Rabs_Ropp; lra). lra.
Qed.

(** ** float32 *)
Notation fnth := (znth (fzero : f32)).
Lemma vmax_fold (xs : list f32) : forall m : f32, is_finite m = true -> Forall (fun x : f32 => is_finite x = true) xs ->
  let r := fold_left (fun m v => if fltb m v then v else m) xs m in
  (r = m \/ In r xs) /\ B2R m <= B2R r /\ forall v, In v xs -> B2R v <= B2R r.
Proof.
  induction xs as [|x xs IH]; intros m Fm F; cbn [fold_left].
  - split; [auto|]. split; [lra|]. intros v [].
  - apply Forall_cons_iff in F as [Fx F]. destruct (fltb m x) eqn:L.
    + apply flt32 in L; auto. destruct (IH x Fx F) as (A & B & C). cbv zeta in *. split; [destruct A; [right; left; auto|right; right; auto]|]. split; [lra|].
      intros v [<-|I]; auto.
    + assert (NL : ~ B2R m < B2R x) by (intros H; apply flt32 in H; auto; congruence).
      destruct (IH m Fm F) as (A & B & C). cbv zeta in *. split; [destruct A; auto; right; right; auto|]. split; [lra|]. intros v [<-|I]; [lra|auto].
Qed.
Section S.
Context (ef lf tf : f32 -> f32).
Notation A := (f32_arith ef lf tf).
Lemma vmax32 (xs : list f32) : xs <> [] -> Forall (fun x : f32 => is_finite x = true) xs ->
  In (vmax A xs : f32) xs /\ forall v, In v xs -> B2R v <= B2R (vmax A xs : f32).
Proof.
  intros NE F. destruct xs as [|x xs]; [congruence|]. unfold vmax. cbn [fold_left].
  apply Forall_cons_iff in F as [Fx F]. change (nltb A (nneginf A) x) with (fltb (B754_infinity true : f32) x).
  destruct (fltb_ninf x Fx) as [_ L]. rewrite L.
  destruct (vmax_fold xs x Fx F) as (B & C & D). cbv zeta in *.
  change (fold_left (fun m v : num A => if nltb A m v then v else m) xs x) with (fold_left (fun m v : f32 => if fltb m v then v else m) xs x).
  split; [destruct B as [B|B]; [left; symmetry; exact B|right; exact B]|]. intros v [<-|I]; auto.
Qed.
Lemma fold_left_nth {B} (h : B -> f32 -> B) (xs : list f32) : forall s, fold_left h xs s = fold_left (fun s i => h s (fnth xs i)) (zrange (zlen xs)) s.
Proof.
  assert (G : forall (l : list Z) s, fold_left (fun s i => h s (fnth xs i)) l s = fold_left h (map (fnth xs) l) s).
  { induction l as [|a l IH]; intros s; cbn [fold_left map]; [reflexivity|]. apply IH. }
  intros s. rewrite G. now rewrite map_znth.
Qed.

Context (ge gl : R).
Hypothesis EF : @expf_ok ef ge.
Hypothesis GE : 0 <= ge <= / 4.

Lemma exp_m64 : exp (-64) <= bpow radix2 (-80).
Proof.
  replace (-64) with (- (64)) by ring. rewrite exp_Ropp. change (-80)%Z with (- (80))%Z. rewrite bpow_opp. apply Rinv_le; [apply bpow_gt_0|apply exp64_lo].
Qed.
Lemma p80 : 32 * bpow radix2 (-80) <= u24.
Proof. change 32 with (bpow radix2 5). rewrite <- bpow_plus. change u24 with (bpow radix2 (-24)). apply bpow_le. lia. Qed.
(** expf of a number within d (relative to a small bound) of a non-positive exact argument *)
Lemma expf_at (t : f32) (T d : R) : is_finite t = true -> Rabs (B2R t - T) <= d -> d <= / 2 -> T <= 0 ->
  is_finite (ef t) = true /\ 0 <= B2R (ef t) /\ Rabs (B2R (ef t) - exp T) <= 2 * ge + 2 * d + 2 * u24.
Proof.
  intros F D D2 T0. apply Rabs_le_inv in D. destruct (EF t F) as (H1 & H2 & H3). pose proof (exp_pos T) as PT. pose proof (exp_pos (B2R t)) as Pt.
  pose proof p80. pose proof (bpow_gt_0 radix2 (-80)).
  destruct (Rle_dec (Rabs (B2R t)) 64) as [L|L].
  - destruct (H1 L) as [F1 E1]. split; [exact F1|]. assert (X2 : exp (B2R t) <= 2) by (apply exp_half_le2; lra).
    split. { apply Rabs_le_inv in E1. assert (ge * exp (B2R t) <= / 4 * exp (B2R t)) by (apply Rmult_le_compat_r; lra). lra. }
    replace (B2R (ef t) - exp T) with ((B2R (ef t) - exp (B2R t)) + (exp (B2R t) - exp T)) by ring. eapply Rle_trans; [apply Rabs_triang|].
    assert (E2 : Rabs (exp (B2R t) - exp T) <= 2 * d).
    { eapply Rle_trans; [apply exp_lip|]. apply Rmult_le_compat; [left; apply exp_pos|apply Rabs_pos| |apply Rabs_le; lra]. apply exp_half_le2. apply Rmax_case; lra. }
    assert (ge * exp (B2R t) <= ge * 2) by (apply Rmult_le_compat_l; lra). lra.
  - assert (L2 : B2R t < -64). { destruct (Rle_dec 0 (B2R t)); [rewrite Rabs_pos_eq in L by lra; lra|rewrite Rabs_left in L by lra; lra]. }
    destruct (H3 L2) as [F1 E1]. split; [exact F1|]. split; [lra|].
    assert (X : exp T <= 2 * bpow radix2 (-80)).
    { apply Rle_trans with (exp (-64 + / 2)); [apply exp_mono; lra|]. rewrite exp_plus. pose proof exp_m64. pose proof (exp_half_le2 (/ 2) ltac:(lra)).
      pose proof (exp_pos (-64)). pose proof (exp_pos (/ 2)). rewrite (Rmult_comm 2). apply Rmult_le_compat; lra. }
    apply Rabs_le. lra.
Qed.
(** expf of the rounded difference *)
Lemma expf_diff (v m : f32) : is_finite v = true -> is_finite m = true -> B2R v <= B2R m -> Rabs (B2R v - B2R m) <= 2 * max32 ->
  is_finite (ef (fsub v m)) = true /\ 0 <= B2R (ef (fsub v m)) /\ Rabs (B2R (ef (fsub v m)) - exp (B2R v - B2R m)) <= ge + 2 * u24.
Proof.
  intros Fv Fm L B. pose proof max32_pos. destruct (fsub_fadd v m Fv Fm) as (F & eps & E & V). { rewrite max32_126. lra. }
  set (d := B2R v - B2R m) in *. set (D := fsub v m : f32) in *. apply Rabs_le_inv in E.
  assert (dN : d <= 0) by (unfold d; lra). assert (DN : B2R D <= 0) by (rewrite V; nra).
  destruct (EF D F) as (H1 & H2 & H3). pose proof (exp_pos d) as Pd. pose proof (exp_pos (B2R D)) as PD. pose proof p80. pose proof (bpow_gt_0 radix2 (-80)).
  destruct (Rle_dec (Rabs (B2R D)) 64) as [L6|L6].
  - destruct (H1 L6) as [F1 E1]. split; [exact F1|]. pose proof (exp_le_1 _ DN).
    split. { apply Rabs_le_inv in E1. assert (ge * exp (B2R D) <= / 4 * exp (B2R D)) by (apply Rmult_le_compat_r; lra). lra. }
    replace (B2R (ef D) - exp d) with ((B2R (ef D) - exp (B2R D)) + (exp (B2R D) - exp d)) by ring. eapply Rle_trans; [apply Rabs_triang|].
    assert (ge * exp (B2R D) <= ge * 1) by (apply Rmult_le_compat_l; lra).
    assert (Rabs (exp (B2R D) - exp d) <= 2 * u24).
    { eapply Rle_trans; [apply exp_lip|]. set (t := - d).
      assert (T : 0 <= t) by (unfold t; lra).
      assert (M1 : exp (Rmax (B2R D) d) <= exp (- (t / 2))). { apply exp_mono. unfold t. apply Rmax_case; [rewrite V; nra|lra]. }
      assert (M2 : Rabs (B2R D - d) <= t * u24). { rewrite V. replace (d * (1 + eps) - d) with (d * eps) by ring. rewrite Rabs_mult, (Rabs_left1 d) by lra. apply Rmult_le_compat_l; [exact T|]. apply Rabs_le. lra. }
      apply Rle_trans with (exp (- (t / 2)) * (t * u24)).
      { apply Rmult_le_compat; auto using Rabs_pos. left. apply exp_pos. }
      rewrite exp_Ropp. pose proof (exp_pos (t / 2)) as PX. pose proof (exp_ineq1_le (t / 2)) as IX.
      replace (/ exp (t / 2) * (t * u24)) with ((t / exp (t / 2)) * u24) by (field; lra). apply Rmult_le_compat_r; [lra|].
      apply Rmult_le_reg_r with (exp (t / 2)); [exact PX|]. unfold Rdiv at 1. rewrite Rmult_assoc, Rinv_l by lra. lra. }
    lra.
  - rewrite Rabs_left1 in L6 by exact DN. assert (L2 : B2R D < -64) by lra.
    destruct (H3 L2) as [F1 E1]. split; [exact F1|]. split; [lra|].
    assert (X : exp d <= 3 * bpow radix2 (-80)).
    { assert (d < -63) by (rewrite V in L2; nra). apply Rle_trans with (exp (-64 + 1)); [apply exp_mono; lra|]. rewrite exp_plus. pose proof exp_m64. pose proof exp_le_3.
      pose proof (exp_pos (-64)). pose proof (exp_pos 1). rewrite (Rmult_comm 3). apply Rmult_le_compat; lra. }
    apply Rabs_le. lra.
Qed.

Lemma sumr_cst n c : (0 <= n)%Z -> sumr n (fun _ => c) = IZR n * c.
Proof.
  revert n. apply (sumr_ind (fun n => sumr n (fun _ => c) = IZR n * c)).
  - rewrite sumr_0 by lia. lra.
  - intros n Hn IH. rewrite sumr_S, IH, plus_IZR by lia. lra.
Qed.
Hypothesis LF : @logf_ok lf gl.
Lemma gl_pos : 0 <= gl.
Proof.
  destruct one32 as [V F]. destruct (LF (f_of_Z 1) F ltac:(rewrite V; lra)) as [_ H]. eapply Rle_trans; [apply Rabs_pos|exact H].
Qed.
(** The number subtracted before the exponential, in either order of the sum. *)
Definition sum_exp (xs : list f32) : f32 := fold_left (fun s v => fadd s (ef (fsub v (vmax A xs : f32)))) xs fzero.
Definition offset (b : bool) (xs : list f32) : f32 := if b then fadd (lf (sum_exp xs)) (vmax A xs : f32) else fadd (vmax A xs : f32) (lf (sum_exp xs)).
Lemma softmax32_gen (b : bool) (xs : list f32) (M : R) i : Forall (fun x : f32 => is_finite x = true) xs ->
  (forall j, (0 <= j < zlen xs)%Z -> Rabs (B2R (fnth xs j)) <= M) -> softmax_small ge gl (zlen xs) M -> (0 <= i < zlen xs)%Z ->
  (is_finite (offset b xs) = true /\
   Rabs (B2R (offset b xs) - ln (sumr (zlen xs) (fun j => exp (B2R (fnth xs j))))) <= u24 * (M + IZR (zlen xs) + gl) + (gl + 2 * softmax_sum_err ge (zlen xs))) /\
  is_finite (ef (fsub (fnth xs i) (offset b xs))) = true /\
  Rabs (B2R (ef (fsub (fnth xs i) (offset b xs))) - exp (B2R (fnth xs i)) / sumr (zlen xs) (fun j => exp (B2R (fnth xs j)))) <= 2 * ge + 2 * softmax_arg_err ge gl (zlen xs) M + 2 * u24.
Proof.
  intros FX BM (N6 & MM & SE & AE) Hi. set (n := zlen xs) in *. pose proof gl_pos as GL.
  assert (NE : xs <> []). { intros E0. unfold n in Hi. rewrite E0 in Hi. change (zlen (@nil f32)) with 0%Z in Hi. lia. }
  destruct (vmax32 xs NE FX) as [IM MX]. set (m := vmax A xs : f32) in *.
  assert (FI : forall v, In v xs -> is_finite v = true) by (apply Forall_forall; exact FX).
  assert (Fm : is_finite m = true) by auto.
  assert (NI : forall j, (0 <= j < n)%Z -> In (fnth xs j) xs) by (intros j Hj; unfold znth; apply nth_In; unfold n, zlen in Hj; lia).
  destruct (In_zget _ _ IM) as [jm Ejm]. pose proof (zget_bound _ _ _ Ejm) as Hjm. rewrite (zget_znth (fzero : f32)) in Ejm by exact Hjm. injection Ejm as Ejm. fold n in Hjm.
  assert (Bm : Rabs (B2R m) <= M) by (rewrite <- Ejm; auto).
  assert (MP : 0 <= M) by (eapply Rle_trans; [apply Rabs_pos|exact Bm]).
  pose proof max32_pos as MX0.
  assert (N1 : 1 <= IZR n <= 65536) by (split; apply IZR_le; lia).
  pose (E := fun j => ef (fsub (fnth xs j) m)). pose (d := fun j => B2R (fnth xs j) - B2R m).
  pose (a := ge + 2 * u24).
  assert (EJ : forall j, (0 <= j < n)%Z -> is_finite (E j) = true /\ 0 <= B2R (E j) <= 1 + a /\ Rabs (B2R (E j) - exp (d j)) <= a /\ d j <= 0).
  { intros j Hj. pose proof (NI j Hj) as Ij. pose proof (MX _ Ij) as Lj. specialize (BM j Hj).
    destruct (expf_diff (fnth xs j) m (FI _ Ij) Fm Lj) as (F & P & D).
    { unfold Rminus. eapply Rle_trans; [apply Rabs_triang|]. rewrite Rabs_Ropp. lra. }
    assert (dj : d j <= 0) by (unfold d; lra). split; [exact F|]. pose proof (exp_le_1 _ dj). fold (d j) in D. split; [|split; [exact D|exact dj]].
    split; [exact P|]. apply Rabs_le_inv in D. unfold E, a. lra. }
  pose (Sx := sumr n (fun j => exp (d j))).
  assert (S1 : 1 <= Sx <= IZR n).
  { split.
    - pose proof (NetErr.sumr_le1 n (fun j => exp (d j)) jm Hjm) as Q. cbv beta in Q. replace 1 with (exp (d jm)).
      + apply Q. intros; left; apply exp_pos.
      + unfold d. rewrite Ejm, Rminus_diag_eq by reflexivity. apply exp_0.
    - replace (IZR n) with (sumr n (fun _ => 1)) by (rewrite sumr_cst by lia; lra).
      assert (Q : 0 <= sumr n (fun j => 1 - exp (d j))). { apply sumr_nonneg. intros j Hj. destruct (EJ j Hj) as (_ & _ & _ & D). pose proof (exp_le_1 _ D). lra. }
      rewrite sumr_minus in Q. unfold Sx. lra. }
  pose (s := sum_exp xs).
  assert (SA : sumr n (fun j => Rabs (B2R (E j))) <= IZR n * (1 + a)).
  { rewrite <- sumr_cst by lia. assert (Q : 0 <= sumr n (fun j => (1 + a) - Rabs (B2R (E j)))).
    { apply sumr_nonneg. intros j Hj. destruct (EJ j Hj) as (_ & P & _). rewrite Rabs_pos_eq by lra. lra. }
    rewrite sumr_minus in Q. lra. }
  assert (A1 : 0 <= a <= 1) by (unfold a; lra).
  assert (M131 : 131072 <= max32) by (change 131072 with (bpow radix2 17); apply bpow_le; lia).
  assert (TS : tracks (0 + Z.to_nat n) (sumr n (fun j => Rabs (B2R (E j)))) (sumr n (fun j => B2R (E j))) s).
  { unfold s, sum_exp. fold m. rewrite fold_left_nth. fold n. apply tracks_sum with (term := E); [reflexivity| | | |lia].
    - intros j Hj. apply tracks_exact. apply EJ. exact Hj.
    - rewrite INR_IZR_INZ. apply IZR_le. lia.
    - eapply Rle_trans; [exact SA|]. apply Rle_trans with (65536 * (1 + 1)); [apply Rmult_le_compat; lra|lra]. }
  destruct TS as (Fs & Ds & _). rewrite Nat.add_0_l in Ds.
  assert (DS : Rabs (B2R s - Sx) <= softmax_sum_err ge n).
  { replace (B2R s - Sx) with ((B2R s - sumr n (fun j => B2R (E j))) + (sumr n (fun j => B2R (E j)) - Sx)) by ring.
    eapply Rle_trans; [apply Rabs_triang|]. unfold softmax_sum_err. rewrite Rplus_comm. apply Rplus_le_compat.
    - unfold Sx. rewrite <- sumr_minus. fold a. rewrite <- sumr_cst by lia.
      assert (Q : forall l, (forall j, In j l -> (0 <= j < n)%Z) -> Rabs (rsum (map (fun j => B2R (E j) - exp (d j)) l)) <= rsum (map (fun _ => a) l)).
      { induction l as [|j l IH]; intros B; simpl; [rewrite Rabs_R0; lra|]. eapply Rle_trans; [apply Rabs_triang|]. apply Rplus_le_compat.
        - apply EJ. apply B. now left.
        - apply IH. intros k Hk. apply B. now right. }
      apply Q. intros j Hj. apply zrange_In in Hj. exact Hj.
    - eapply Rle_trans; [exact Ds|]. apply Rmult_le_compat_l; [apply rel_nonneg|]. unfold a in SA. lra. }
  assert (SEP : 0 <= softmax_sum_err ge n) by (eapply Rle_trans; [apply Rabs_pos|exact DS]).
  assert (DS' := DS). apply Rabs_le_inv in DS'.
  assert (Ss : / 2 <= B2R s <= 131072) by lra.
  destruct (LF s Fs Ss) as [Fl Dl]. set (l := lf s) in *.
  assert (DL : Rabs (B2R l - ln Sx) <= gl + 2 * softmax_sum_err ge n).
  { replace (B2R l - ln Sx) with ((B2R l - ln (B2R s)) + (ln (B2R s) - ln Sx)) by ring. eapply Rle_trans; [apply Rabs_triang|].
    pose proof (ln_lip (B2R s) Sx ltac:(lra) ltac:(lra)). lra. }
  assert (LS : 0 <= ln Sx <= IZR n - 1).
  { split; [|pose proof (ln_le_pred Sx ltac:(lra)); lra]. rewrite <- ln_1. destruct (Req_dec Sx 1) as [->|]; [lra|]. left. apply ln_increasing; lra. }
  set (se := softmax_sum_err ge n) in *. unfold softmax_arg_err in AE |- *. fold se in AE |- *.
  pose (K := M + IZR n + gl).
  assert (GLs : gl <= / 2) by nra.
  assert (BL : Rabs (B2R m + B2R l) <= K).
  { apply Rabs_le_inv in DL. apply Rabs_le_inv in Bm. unfold K. apply Rabs_le. lra. }
  assert (KB : K <= 2 * max32) by (unfold K; lra).
  assert (KP : 0 <= K) by (unfold K; lra).
  assert (O3 : is_finite (offset b xs) = true /\ exists e1, Rabs e1 <= u24 /\ B2R (offset b xs) = (B2R m + B2R l) * (1 + e1)).
  { unfold offset. fold m s l. destruct b.
    - rewrite (Rplus_comm (B2R m)). apply fadd32; auto. rewrite Rplus_comm, max32_126. lra.
    - apply fadd32; auto. rewrite max32_126. lra. }
  destruct O3 as (Fo & e1 & U1 & Vo).
  set (o := offset b xs : f32) in *.
  assert (BO : Rabs (B2R o) <= 2 * K).
  { rewrite Vo, Rabs_mult. rewrite Rmult_comm. apply Rmult_le_compat; auto using Rabs_pos. eapply Rle_trans; [apply Rabs_triang|]. rewrite Rabs_R1. lra. }
  assert (DO : Rabs (B2R o - (B2R m + ln Sx)) <= u24 * K + (gl + 2 * se)).
  { replace (B2R o - (B2R m + ln Sx)) with ((B2R m + B2R l) * e1 + (B2R l - ln Sx)) by (rewrite Vo; ring). eapply Rle_trans; [apply Rabs_triang|].
    apply Rplus_le_compat; [|exact DL]. rewrite Rabs_mult, Rmult_comm. apply Rmult_le_compat; auto using Rabs_pos. }
  pose proof (NI i Hi) as Ii. set (v := fnth xs i) in *. assert (Bv : Rabs (B2R v) <= M) by (apply BM; exact Hi).
  assert (BVO : Rabs (B2R v - B2R o) <= M + 2 * K). { unfold Rminus. eapply Rle_trans; [apply Rabs_triang|]. rewrite Rabs_Ropp. lra. }
  destruct (fsub_fadd v o (FI _ Ii) Fo) as (Ft & e2 & U2 & Vt). { rewrite max32_126. lra. }
  set (t := fsub v o : f32) in *. pose (T := B2R v - B2R m - ln Sx).
  assert (DT : Rabs (B2R t - T) <= gl + 2 * se + u24 * (4 * M + 4 * (IZR n + 1 + gl))).
  { replace (B2R t - T) with ((B2R v - B2R o) * e2 + - (B2R o - (B2R m + ln Sx))) by (rewrite Vt; unfold T; ring).
    eapply Rle_trans; [apply Rabs_triang|]. rewrite Rabs_Ropp, Rabs_mult.
    assert (Rabs (B2R v - B2R o) * Rabs e2 <= (M + 2 * K) * u24) by (apply Rmult_le_compat; auto using Rabs_pos). unfold K in *. lra. }
  assert (T0 : T <= 0). { unfold T. pose proof (MX _ Ii). lra. }
  destruct (expf_at t T _ Ft DT AE T0) as (Fp & _ & Dp).
  assert (SX : sumr n (fun j => exp (B2R (fnth xs j))) = exp (B2R m) * Sx).
  { unfold Sx. rewrite <- sumr_scal. apply sumr_ext. intros j _. rewrite <- exp_plus. f_equal. unfold d. ring. }
  split; [split; [exact Fo|]; rewrite SX, ln_mult, ln_exp by (try apply exp_pos; lra); exact DO|].
  split; [exact Fp|].
  assert (EQ : exp T = exp (B2R v) / sumr n (fun j => exp (B2R (fnth xs j)))).
  { unfold T. replace (B2R v - B2R m - ln Sx) with (B2R v + (- B2R m + - ln Sx)) by ring. rewrite !exp_plus, (exp_Ropp (ln Sx)), exp_ln by lra.
    assert (X : sumr n (fun j => exp (B2R (fnth xs j))) = exp (B2R m) * Sx).
    { unfold Sx. rewrite <- sumr_scal. apply sumr_ext. intros j _. rewrite <- exp_plus. f_equal. unfold d. ring. }
    rewrite X, exp_Ropp. pose proof (exp_pos (B2R m)). field. lra. }
  rewrite <- EQ. exact Dp.
Qed.
Lemma softmax32 (xs : list f32) (M : R) i : Forall (fun x : f32 => is_finite x = true) xs ->
  (forall j, (0 <= j < zlen xs)%Z -> Rabs (B2R (fnth xs j)) <= M) -> softmax_small ge gl (zlen xs) M -> (0 <= i < zlen xs)%Z ->
  is_finite (fnth (softmax A xs) i) = true /\
  Rabs (B2R (fnth (softmax A xs) i) - exp (B2R (fnth xs i)) / sumr (zlen xs) (fun j => exp (B2R (fnth xs j)))) <= 2 * ge + 2 * softmax_arg_err ge gl (zlen xs) M + 2 * u24.
Proof.
  intros FX BM SM Hi. destruct (softmax32_gen false xs M i FX BM SM Hi) as [_ G].
  replace (fnth (softmax A xs) i) with (ef (fsub (fnth xs i) (offset false xs))); [exact G|].
  assert (LN : (Z.to_nat i < length xs)%nat) by (unfold zlen in Hi; lia).
  transitivity (fnth (map (fun v0 : f32 => ef (fsub v0 (offset false xs))) xs) i); [|reflexivity]. unfold znth.
  rewrite (nth_indep (map (fun v0 : f32 => ef (fsub v0 (offset false xs))) xs) (fzero : f32) (ef (fsub (fzero : f32) (offset false xs)))) by (rewrite map_length; exact LN).
  rewrite (map_nth (fun v0 : f32 => ef (fsub v0 (offset false xs))) xs (fzero : f32)). reflexivity.
Qed.
(** The logarithm of a sum of exponentials moves no more than the exponents. *)
Lemma lnsum_lip n (X X' : Z -> R) d : (1 <= n)%Z -> (forall j, (0 <= j < n)%Z -> Rabs (X j - X' j) <= d) ->
  Rabs (ln (sumr n (fun j => exp (X j))) - ln (sumr n (fun j => exp (X' j)))) <= d.
Proof using.
  intros Hn H. pose proof (sumr_exp_pos n X Hn) as P1. pose proof (sumr_exp_pos n X' Hn) as P2.
  pose proof (sumr_exp_between n X X' d H (fun _ => true)) as R1. cbv beta iota in R1.
  pose proof (sumr_exp_between n X' X d (fun j Hj => eq_ind _ (fun v => v <= d) (H j Hj) _ (Rabs_minus_sym _ _)) (fun _ => true)) as R2. cbv beta iota in R2.
  pose proof (exp_pos d) as P3. apply Rabs_le. split.
  - assert (L : ln (sumr n (fun j => exp (X' j))) <= ln (exp d * sumr n (fun j => exp (X j)))) by (destruct R1 as [R1| ->]; [left; now apply ln_increasing|lra]).
    rewrite ln_mult, ln_exp in L by assumption. lra.
  - assert (L : ln (sumr n (fun j => exp (X j))) <= ln (exp d * sumr n (fun j => exp (X' j)))) by (destruct R2 as [R2|E]; [left; now apply ln_increasing|rewrite E; lra]).
    rewrite ln_mult, ln_exp in L by assumption. lra.
Qed.
End S.
