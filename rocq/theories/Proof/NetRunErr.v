(** Error bounds for networks whose weights and inputs went through decimal text. *)
From Coq Require Import String ZArith List Bool Lia Reals Lra.
From Flocq Require Import Core BinarySingleNaN.
From Verif.Base Require Import Res ListX Loops Float FloatOrder Arith Kernels RealSum.
From Verif.Model Require Import Common Net NetRun.
From Verif.Spec Require Import RealSpec NetSpec RoundingSpec NetRunSpec.
From Verif.Proof Require Import FloatErr NetErr Net NetApi NetFun NetClose.
Import ListNotations.
Open Scope Z_scope.

Lemma maxl_mono a b : Forall2 Rle a b -> (maxl a <= maxl b)%R.
Proof.
  induction 1; simpl; [lra|]. unfold maxl in *. simpl. apply Rle_trans with (Rmax x (fold_right Rmax 0 l'))%R.
  - apply Rle_max_compat_l. exact IHForall2.
  - apply Rle_max_compat_r. exact H.
Qed.
Lemma Forall2_map_zrange (h k : Z -> R) n : (forall o, 0 <= o < n -> (h o <= k o)%R) -> Forall2 Rle (map h (zrange n)) (map k (zrange n)).
Proof.
  intros H. assert (G : forall l, (forall o, In o l -> 0 <= o < n) -> Forall2 Rle (map h l) (map k l)).
  { induction l as [|o l IH]; intros B; simpl; constructor; [apply H, B; now left|apply IH; intros; apply B; now right]. }
  apply G. intros o Ho. now apply zrange_In in Ho.
Qed.
Lemma Forall_le (c : R) a b : Forall2 Rle a b -> Forall (fun t => (t <= c)%R) b -> Forall (fun t => (t <= c)%R) a.
Proof. induction 1; intros F; constructor; apply Forall_cons_iff in F as [F1 F2]; [lra|auto]. Qed.
Lemma Forall2_nthr a b : Forall2 Rle a b -> forall i, (nthr a i <= nthr b i)%R.
Proof.
  unfold nthr, znth. intros H i. generalize (Z.to_nat i). clear i. induction H; intros [|i]; simpl; try lra; auto.
Qed.
Lemma print6_nonneg v : (0 <= print6 v)%R.
Proof. unfold print6. pose proof (Rabs_pos v). lra. Qed.
Lemma print8_nonneg v : (0 <= print8 v)%R.
Proof. unfold print8. pose proof (Rabs_pos v). lra. Qed.

Section N.
Context {ef lf tf : f32 -> f32} (ge gl gt : R).
Notation A := (f32_arith ef lf tf).

(** Each stored number is the intended one, printed and read. *)
Definition near_layer (l : net_layer A) (L : rlayer) : Prop :=
  (forall i o, 0 <= i < r_inputs L -> 0 <= o < r_outputs L -> (Rabs (r_weight (as_real l) i o - r_weight L i o) <= print6 (r_weight L i o))%R) /\
  (forall o, 0 <= o < r_outputs L -> (Rabs (r_bias (as_real l) o - r_bias L o) <= print6 (r_bias L o))%R).
Lemma near_big (w W : R) : (Rabs (w - W) <= print6 W)%R -> (Rabs w <= big W)%R.
Proof. intros H. unfold big. replace w with (W + (w - W))%R by ring. eapply Rle_trans; [apply Rabs_triang|]. lra. Qed.

Section L.
Variables (l : net_layer A) (L : rlayer) (m e : list R).
Hypothesis SH : same_shape l L.
Hypothesis NR : near_layer l L.
Hypothesis LM : zlen m = r_inputs L.
Hypothesis M0 : forall i, 0 <= i < r_inputs L -> (0 <= nthr m i)%R.
Hypothesis E0 : forall i, 0 <= i < r_inputs L -> (0 <= nthr e i)%R.

Lemma mag_le : Forall2 Rle (layer_mag l (plus_list m e)) (run_sums L m e).
Proof using All.
  destruct SH as (S1 & S2 & S3), NR as [N1 N2]. unfold layer_mag, run_sums. rewrite <- S2. apply Forall2_map_zrange. intros o Ho.
  unfold run_sum. rewrite <- S1. apply Rplus_le_compat.
  - apply sumr_le. intros i Hi. rewrite nthr_plus by lia. apply Rplus_le_compat_r. apply Rmult_le_compat_r.
    + pose proof (M0 i Hi). pose proof (E0 i Hi). lra.
    + apply near_big, N1; lia.
  - apply near_big, N2; lia.
Qed.
Lemma pre_le : Forall2 Rle (pre_err l L m e) (run_pre L m e).
Proof using All.
  destruct SH as (S1 & S2 & S3), NR as [N1 N2]. unfold pre_err, run_pre. rewrite <- S2, <- S1. apply Forall2_map_zrange. intros o Ho.
  apply Rplus_le_compat; [apply Rplus_le_compat|].
  - apply sumr_le. intros i Hi. apply Rplus_le_compat; (apply Rmult_le_compat_r; [auto|]).
    + apply near_big, N1; lia.
    + apply N1; lia.
  - apply N2; lia.
  - apply Rmult_le_compat_l; [apply rel_nonneg|]. unfold run_sum. apply Rplus_le_compat.
    + apply sumr_le. intros i Hi. apply Rplus_le_compat_r. apply Rmult_le_compat_r.
      * pose proof (M0 i Hi). pose proof (E0 i Hi). lra.
      * apply near_big, N1; lia.
    + apply near_big, N2; lia.
Qed.
Lemma act_err_mono a x y : (x <= y)%R -> (act_err ge gt a x <= act_err ge gt a y)%R.
Proof using. intros H. destruct a; cbn [act_err]; lra. Qed.
Lemma softmax_mono n M M' d d' : (M <= M')%R -> (d <= d')%R -> (softmax_err ge gl n M d <= softmax_err ge gl n M' d')%R.
Proof using. intros H1 H2. unfold softmax_err, softmax_arg_err. lra. Qed.
Lemma err_le : Forall2 Rle (layer_err ge gl gt l L m e) (run_layer ge gl gt L m e).
Proof using All.
  pose proof SH as (S1 & S2 & S3). unfold layer_err, run_layer. rewrite S3.
  assert (D : Forall2 Rle (map (act_err ge gt (l_activation A l)) (pre_err l L m e)) (map (act_err ge gt (l_activation A l)) (run_pre L m e))).
  { pose proof pre_le as P. induction P; simpl; constructor; auto. now apply act_err_mono. }
  destruct (l_activation A l); try exact D. rewrite <- S2. apply Forall2_map_zrange. intros o Ho. apply softmax_mono.
  - unfold sums_mag. pose proof (maxl_mono _ _ mag_le). lra.
  - apply maxl_mono, pre_le.
Qed.
Lemma small_le : Forall (fun t => (t <= max32)%R) (run_sums L m e) ->
  (r_activation L = ActSoftmax -> softmax_small ge gl (r_outputs L) (2 * maxl (run_sums L m e))) -> layer_small ge gl l m e.
Proof using All.
  intros H1 H2. pose proof SH as (S1 & S2 & S3). split.
  - exact (Forall_le _ _ _ mag_le H1).
  - intros Q. rewrite <- S3 in Q. specialize (H2 Q). rewrite S2 in H2. unfold softmax_small, softmax_arg_err, sums_mag in *.
    pose proof (maxl_mono _ _ mag_le). destruct H2 as (A1 & A2 & A3 & A4). split; [exact A1|]. split; [lra|]. split; [exact A3|]. lra.
Qed.
End L.

Lemma close_weaken e e' X (xs : list f32) : Forall2 Rle e e' -> close_all e X xs -> close_all e' X xs.
Proof.
  intros H (L1 & L2 & C). split; [|split; [exact L2|]].
  - rewrite <- L1. clear - H. induction H; [reflexivity|]. rewrite !zlen_cons. lia.
  - intros i Hi. destruct (C i Hi) as [F D]. split; [exact F|]. pose proof (Forall2_nthr _ _ H i). lra.
Qed.
Lemma run_close (ls : list (net_layer A)) : (0 <= ge <= / 4)%R -> Forall (layer_ok A) ls -> Forall finite_layer ls -> Forall (libm_ok ge gl gt) ls ->
  Forall (fun l => l_n_inputs A l <= 8388606) ls ->
  forall Ls m e X (xs : list f32), Forall2 same_shape ls Ls -> Forall2 near_layer ls Ls -> chain A (zlen xs) ls -> bounded m X -> close_all e X xs -> run_fits ge gl gt Ls m e ->
  close_all (run_err ge gl gt Ls m e) (rnet_fun Ls X) (net_fun A ls xs).
Proof.
  intros GE OK. induction OK as [|l r OL OK IH]; intros FF LM N8 Ls m e X xs SH NR CH BM CL SM.
  - inversion SH; subst. exact CL.
  - inversion SH as [|? L ? Lr S1 SR]; subst. inversion NR as [|? ? ? ? R1 RR]; subst.
    apply Forall_cons_iff in FF as [F1 FR]. apply Forall_cons_iff in LM as [L1 LR]. apply Forall_cons_iff in N8 as [N1 NR'].
    destruct CH as [C1 C2]. destruct SM as [[M1 M1'] M2]. pose proof S1 as (Q1 & Q2 & Q3). pose proof BM as [B1 B2]. pose proof CL as (D1 & D2 & D3).
    assert (ZM : zlen m = r_inputs L) by lia.
    assert (M0 : forall i, 0 <= i < r_inputs L -> (0 <= nthr m i)%R).
    { intros i Hi. eapply Rle_trans; [apply Rabs_pos|apply B2; lia]. }
    assert (E0 : forall i, 0 <= i < r_inputs L -> (0 <= nthr e i)%R).
    { intros i Hi. eapply Rle_trans; [apply Rabs_pos|apply D3; lia]. }
    destruct (layer_close ge gl gt l L m e X xs GE OL F1 L1 S1 C1 N1 BM CL (small_le l L m e S1 R1 ZM M0 E0 M1 M1')) as [CL' BM'].
    cbn [run_err]. change (rnet_fun (L :: Lr) X) with (rnet_fun Lr (rlayer_fun L X)). change (net_fun A (l :: r) xs) with (net_fun A r (layer_fun A l xs)).
    apply IH; auto.
    + rewrite zlen_layer_fun32 by exact OL. exact C2.
    + eapply close_weaken; [|exact CL']. now apply err_le.
Qed.
End N.
