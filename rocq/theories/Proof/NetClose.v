(** Error bounds for networks with any activation. *)
From Coq Require Import ZArith List Bool Lia Reals Lra.
From Flocq Require Import Core BinarySingleNaN.
From Verif.Base Require Import Res ListX Loops Float FloatOrder Arith Kernels RealSum.
From Verif.Model Require Import Common Net.
From Verif.Spec Require Import RealSpec NetSpec RoundingSpec.
From Verif.Proof Require Import FloatErr NetErr Net NetApi NetFun Logistic Softmax.
Import ListNotations.
Open Scope Z_scope.

Lemma sumr_abs n (h : Z -> R) : (Rabs (sumr n h) <= sumr n (fun i => Rabs (h i)))%R.
Proof.
  unfold sumr. induction (zrange n) as [|a l IH]; simpl; [rewrite Rabs_R0; lra|]. eapply Rle_trans; [apply Rabs_triang|]. lra.
Qed.
Lemma sumr_le n (h k : Z -> R) : (forall i, 0 <= i < n -> (h i <= k i)%R) -> (sumr n h <= sumr n k)%R.
Proof.
  intros H. assert (0 <= sumr n (fun i => k i - h i))%R by (apply sumr_nonneg; intros i Hi; specialize (H i Hi); lra).
  rewrite sumr_minus in H0. lra.
Qed.

Section N.
Context {ef lf tf : f32 -> f32} (ge gl gt : R).
Notation A := (f32_arith ef lf tf).
Notation fnth := (znth (fzero : f32)).
Notation close := (@close_all).

(** Bounded inputs with errors. *)
Definition bounded (m X : list R) : Prop := zlen m = zlen X /\ forall i, 0 <= i < zlen X -> (Rabs (nthr X i) <= nthr m i)%R.

Lemma nthr_plus m e i : 0 <= i < zlen m -> nthr (plus_list m e) i = (nthr m i + nthr e i)%R.
Proof. intros H. unfold plus_list, nthr. now rewrite (znth_map_zrange 0%R) by lia. Qed.
Lemma tracks_given m e X (xs : list f32) : bounded m X -> close_all e X xs -> tracks_all 0 (plus_list m e) (map B2R xs) xs.
Proof.
  intros [LM BM] (LE & LX & C). split; [|split].
  - unfold plus_list. rewrite zlen_map, zlen_zrange'. pose proof (zlen_nonneg m). lia.
  - apply zlen_map.
  - intros i Hi. rewrite nthr_plus by lia. destruct (C i Hi) as [F D]. specialize (BM i ltac:(lia)).
    assert (E : nthr (map B2R xs) i = B2R (fnth xs i)) by (unfold nthr, znth; apply (map_nth B2R xs (fzero : f32))). rewrite E.
    eapply tracks_weaken; [apply tracks_exact; exact F|lia|].
    replace (B2R (fnth xs i)) with ((B2R (fnth xs i) - nthr X i) + nthr X i)%R by ring. eapply Rle_trans; [apply Rabs_triang|]. lra.
Qed.

Lemma act_close (l : net_layer A) (v : f32) (V d : R) : (0 <= ge <= / 4)%R -> libm_ok ge gl gt l -> l_activation A l <> ActSoftmax -> is_finite v = true -> (Rabs (B2R v - V) <= d)%R ->
  (forall c, l_activation A l <> ActOther c) ->
  is_finite (@act32 ef tf (l_activation A l) v) = true /\ (Rabs (B2R (@act32 ef tf (l_activation A l) v) - act_fun (l_activation A l) V) <= act_err ge gt (l_activation A l) d)%R.
Proof.
  intros GE (HE & HT & _) NS Fv D NO. destruct (l_activation A l) eqn:EA; cbn [act32 act_fun act_err].
  - auto.
  - destruct (fleb v fzero) eqn:L.
    + apply (fle32 v fzero Fv eq_refl) in L. change (B2R fzero) with 0%R in *. split; [reflexivity|]. eapply Rle_trans; [|exact D].
      unfold Rmax. destruct (Rle_dec 0 V).
      * rewrite (Rabs_left1 (0 - V)), (Rabs_left1 (B2R v - V)) by lra. lra.
      * rewrite Rminus_0_r, Rabs_R0. apply Rabs_pos.
    + assert (L' : ~ (B2R v <= 0)%R). { intros H. apply (fle32 v fzero Fv eq_refl) in H. congruence. }
      split; [exact Fv|]. eapply Rle_trans; [|exact D]. unfold Rmax. destruct (Rle_dec 0 V); [lra|].
      rewrite Rminus_0_r, !Rabs_pos_eq by lra. lra.
  - destruct (sigma32 ef ge v (HE (or_introl eq_refl)) GE Fv) as [Fy Vy]. cbv zeta in Fy, Vy. split; [exact Fy|].
    set (y := fdiv (f_of_Z 1) (fadd (f_of_Z 1) (ef (Bopp v))) : f32) in *.
    replace (B2R y - sigma V)%R with ((B2R y - sigma (B2R v)) + (sigma (B2R v) - sigma V))%R by ring.
    eapply Rle_trans; [apply Rabs_triang|]. pose proof (sigma_lip (B2R v) V). lra.
  - now elim NS.
  - destruct (HT eq_refl v Fv) as [Fy Vy]. split; [exact Fy|].
    replace (B2R (tf v) - tanh V)%R with ((B2R (tf v) - tanh (B2R v)) + (tanh (B2R v) - tanh V))%R by ring.
    eapply Rle_trans; [apply Rabs_triang|]. pose proof (tanh_lip (B2R v) V). lra.
  - now elim (NO code).
Qed.

Lemma maxl_ge (l : list R) i : 0 <= i < zlen l -> (nthr l i <= maxl l)%R.
Proof.
  unfold nthr, znth. intros H. assert (I : In (nth (Z.to_nat i) l 0%R) l) by (apply nth_In; unfold zlen in H; lia).
  revert I. generalize (nth (Z.to_nat i) l 0%R). clear. induction l as [|a l IH]; intros r []; cbn [maxl fold_right].
  - subst. apply Rmax_l.
  - eapply Rle_trans; [apply IH; assumption|apply Rmax_r].
Qed.
Lemma nth_rsoftmax (xs : list R) i : 0 <= i < zlen xs -> nthr (rsoftmax xs) i = (exp (nthr xs i) / sumr (zlen xs) (fun j => exp (nthr xs j)))%R.
Proof.
  intros H. unfold rsoftmax.
  assert (S : rsum (map exp xs) = sumr (zlen xs) (fun j => exp (nthr xs j))).
  { unfold sumr. f_equal. rewrite <- (map_map (nthr xs) exp). unfold nthr. now rewrite map_znth. }
  rewrite S. set (s := sumr _ _). unfold nthr, znth. rewrite (nth_indep (map (fun x => exp x / s)%R xs) 0%R (exp 0 / s)%R) by (rewrite map_length; unfold zlen in H; lia).
  rewrite (map_nth (fun x => exp x / s)%R xs 0%R). reflexivity.
Qed.
Lemma rsoftmax_bound (xs : list R) i : 0 <= i < zlen xs -> (Rabs (nthr (rsoftmax xs) i) <= 1)%R.
Proof.
  intros H. rewrite nth_rsoftmax by exact H. pose proof (exp_pos (nthr xs i)) as P.
  assert (Q : (exp (nthr xs i) <= sumr (zlen xs) (fun j => exp (nthr xs j)))%R).
  { apply (sumr_le1 (zlen xs) (fun j => exp (nthr xs j)) i H). intros; left; apply exp_pos. }
  rewrite Rabs_pos_eq. 2:{ apply Rmult_le_pos; [lra|]. left. apply Rinv_0_lt_compat. lra. }
  apply Rmult_le_reg_r with (sumr (zlen xs) (fun j => exp (nthr xs j))); [lra|]. unfold Rdiv. rewrite Rmult_assoc, Rinv_l by lra. lra.
Qed.

Lemma layer_close (l : net_layer A) L m e X (xs : list f32) : (0 <= ge <= / 4)%R -> layer_ok A l -> finite_layer l -> libm_ok ge gl gt l -> same_shape l L ->
  l_n_inputs A l = zlen xs -> l_n_inputs A l <= 8388606 -> bounded m X -> close_all e X xs -> layer_small ge gl l m e ->
  close_all (layer_err ge gl gt l L m e) (rlayer_fun L X) (layer_fun A l xs) /\ bounded (layer_bound L m) (rlayer_fun L X).
Proof.
  intros GE OK FL LM (S1 & S2 & S3) EN N8 BM CL [MG SM]. assert (O1 : 1 <= l_n_outputs A l) by apply OK. assert (N1 : 1 <= l_n_inputs A l) by apply OK.
  assert (NO : forall c, l_activation A l <> ActOther c) by apply OK.
  set (n := l_n_inputs A l) in *. set (k := l_n_outputs A l) in *.
  pose proof CL as (LE & LX & C). pose proof BM as [LMl BM2].
  assert (PRE : forall o, 0 <= o < k ->
    is_finite (fnth (linear A l xs) o) = true /\ (Rabs (B2R (fnth (linear A l xs) o)) <= 2 * nthr (layer_mag l (plus_list m e)) o)%R /\
    (Rabs (B2R (fnth (linear A l xs) o) - pre L X o) <= nthr (pre_err l L m e) o)%R).
  { intros o Ho. pose proof (linear_tracks l 0 (plus_list m e) (map B2R xs) xs OK FL EN (tracks_given m e X xs BM CL)) as T.
    fold n k in T. assert (GG : (INR (0 + Z.to_nat n + 2) <= 8388608)%R) by (rewrite INR_IZR_INZ; apply IZR_le; lia).
    pose proof (mag_ok _ _ _ _ (T GG MG o Ho) GG) as MO. destruct (T GG MG o Ho) as (F & D & _). split; [exact F|]. split; [exact MO|].
    unfold pre_err, nthr at 1. cbv zeta. fold n k. rewrite (znth_map_zrange 0%R) by lia. replace (0 + Z.to_nat n + 2)%nat with (Z.to_nat (n + 2)) in D by lia.
    assert (EM : nthr (layer_mag l (plus_list m e)) o = (sumr n (fun i => Rabs (r_weight (as_real l) i o) * (nthr m i + nthr e i) + tiny32) + Rabs (r_bias (as_real l) o))%R).
    { unfold layer_mag, nthr at 1. fold n k. rewrite (znth_map_zrange 0%R) by lia. f_equal. apply sumr_ext. intros i Hi. rewrite nthr_plus by lia. reflexivity. }
    rewrite EM in D.
    replace (B2R (fnth (linear A l xs) o) - pre L X o)%R with ((B2R (fnth (linear A l xs) o) - pre (as_real l) (map B2R xs) o) + (pre (as_real l) (map B2R xs) o - pre L X o))%R by ring.
    eapply Rle_trans; [apply Rabs_triang|].
    enough (Rabs (pre (as_real l) (map B2R xs) o - pre L X o) <= sumr n (fun i => Rabs (r_weight (as_real l) i o) * nthr e i + Rabs (r_weight (as_real l) i o - r_weight L i o) * nthr m i) + Rabs (r_bias (as_real l) o - r_bias L o))%R by lra.
    unfold pre. rewrite S1. change (r_inputs (as_real l)) with n. fold n.
    match goal with |- (Rabs (?s1 + ?b1 - (?s2 + ?b2)) <= _)%R => replace (s1 + b1 - (s2 + b2))%R with ((s1 - s2) + (b1 - b2))%R by ring end.
    eapply Rle_trans; [apply Rabs_triang|]. apply Rplus_le_compat_r. rewrite <- sumr_minus. eapply Rle_trans; [apply sumr_abs|].
    apply sumr_le. intros i Hi. destruct (C i ltac:(lia)) as [_ Di]. specialize (BM2 i ltac:(lia)).
    assert (E : nthr (map B2R xs) i = B2R (fnth xs i)) by (unfold nthr, znth; apply (map_nth B2R xs (fzero : f32))). rewrite E.
    replace (r_weight (as_real l) i o * B2R (fnth xs i) - r_weight L i o * nthr X i)%R
      with (r_weight (as_real l) i o * (B2R (fnth xs i) - nthr X i) + (r_weight (as_real l) i o - r_weight L i o) * nthr X i)%R by ring.
    eapply Rle_trans; [apply Rabs_triang|]. rewrite !Rabs_mult.
    apply Rplus_le_compat; apply Rmult_le_compat_l; auto using Rabs_pos. }
  assert (LPE : zlen (pre_err l L m e) = k) by (unfold pre_err; cbv zeta; rewrite zlen_map, zlen_zrange'; fold k; lia).
  split.
  - split; [|split].
    + rewrite zlen_layer_fun32 by exact OK. unfold layer_err. fold k. destruct (l_activation A l); rewrite zlen_map, ?zlen_zrange', ?LPE; lia.
    + rewrite zlen_layer_fun32 by exact OK. rewrite zlen_rlayer_fun; rewrite S2; fold k; lia.
    + intros o Ho. rewrite zlen_layer_fun32 in Ho by exact OK. fold k in Ho.
      assert (DEC : l_activation A l = ActSoftmax \/ l_activation A l <> ActSoftmax) by (destruct (l_activation A l); (left; reflexivity) || (right; discriminate)).
      destruct DEC as [SX|NS].
      * specialize (SM SX). fold k in SM. destruct LM as (HE & _ & HL).
        pose proof (zlen_linear32 l xs OK) as LL. fold k in LL.
        assert (FLN : Forall (fun x : f32 => is_finite x = true) (linear A l xs)).
        { apply Forall_forall. intros v Iv. destruct (In_zget _ _ Iv) as [j Ej]. pose proof (zget_bound _ _ _ Ej) as Hj. change (num A) with f32 in *. rewrite (zget_znth (fzero : f32)) in Ej by exact Hj. injection Ej as <-. apply PRE. lia. }
        assert (BMG : forall j, 0 <= j < zlen (linear A l xs : list f32) -> (Rabs (B2R (fnth (linear A l xs) j)) <= sums_mag l m e)%R).
        { intros j Hj. rewrite LL in Hj. destruct (PRE j Hj) as (_ & B & _). eapply Rle_trans; [exact B|]. unfold sums_mag. apply Rmult_le_compat_l; [lra|]. apply maxl_ge.
          unfold layer_mag. rewrite zlen_map, zlen_zrange'. fold k. lia. }
        assert (SM' : softmax_small ge gl (zlen (linear A l xs : list f32)) (sums_mag l m e)) by (rewrite LL; exact SM).
        destruct (softmax32 ef lf tf ge gl (HE (or_intror SX)) GE (HL SX) (linear A l xs) (sums_mag l m e) o FLN BMG SM' ltac:(lia)) as [F D].
        assert (EL : layer_fun A l xs = softmax A (linear A l xs)) by (unfold layer_fun; rewrite SX; reflexivity). rewrite EL. split; [exact F|].
        assert (ER : rlayer_fun L X = rsoftmax (rlinear L X)) by (unfold rlayer_fun; rewrite S3, SX; reflexivity). rewrite ER.
        assert (LR : zlen (rlinear L X) = k) by (rewrite zlen_rlinear by lia; exact S2).
        rewrite nth_rsoftmax by lia. rewrite LR. rewrite LL in D. unfold layer_err. rewrite SX. unfold nthr at 3. fold k. rewrite (znth_map_zrange 0%R) by lia.
        pose proof (softmax_lip k (fun j => B2R (fnth (linear A l xs) j)) (fun j => nthr (rlinear L X) j) (maxl (pre_err l L m e)) o Ho) as SL.
        specialize (SL ltac:(intros j Hj; rewrite rlinear_nth by lia; eapply Rle_trans; [apply PRE; exact Hj|apply maxl_ge; lia])). cbv beta in SL.
        match goal with |- (Rabs (?p - ?q) <= _)%R => match type of D with (Rabs (_ - ?r) <= _)%R => replace (p - q)%R with ((p - r) + (r - q))%R by ring end end.
        eapply Rle_trans; [apply Rabs_triang|]. unfold softmax_err. lra.
      * rewrite layer_fun_nth by auto. rewrite rlayer_fun_nth by (rewrite ?S3, ?S2; auto). rewrite S3. destruct (PRE o Ho) as (F & _ & D).
        assert (EE : nthr (layer_err ge gl gt l L m e) o = act_err ge gt (l_activation A l) (nthr (pre_err l L m e) o)).
        { assert (E0 : layer_err ge gl gt l L m e = map (act_err ge gt (l_activation A l)) (pre_err l L m e)) by (unfold layer_err; destruct (l_activation A l); try reflexivity; now elim NS).
          rewrite E0. unfold pre_err. cbv zeta. rewrite map_map. unfold nthr. fold k. rewrite !(znth_map_zrange 0%R) by lia. reflexivity. }
        rewrite EE. apply act_close; auto.
  - split.
    + rewrite zlen_rlayer_fun by lia. unfold layer_bound. rewrite zlen_map, zlen_zrange'. lia.
    + rewrite zlen_rlayer_fun by lia. intros o Ho.
      unfold layer_bound, nthr at 2. rewrite (znth_map_zrange 0%R) by lia.
      assert (PB : (Rabs (pre L X o) <= sumr (r_inputs L) (fun i => Rabs (r_weight L i o) * nthr m i) + Rabs (r_bias L o))%R).
      { unfold pre. eapply Rle_trans; [apply Rabs_triang|]. apply Rplus_le_compat_r. eapply Rle_trans; [apply sumr_abs|]. apply sumr_le.
        intros i Hi. rewrite Rabs_mult. apply Rmult_le_compat_l; [apply Rabs_pos|]. apply BM2. rewrite S1 in Hi. fold n in Hi. lia. }
      destruct (r_activation L) eqn:RA; try (rewrite rlayer_fun_nth by (try lia; rewrite RA; discriminate); rewrite RA; cbn [act_fun]; auto).
      * eapply Rle_trans; [|exact PB]. unfold Rmax. destruct (Rle_dec 0 (pre L X o)); [lra|]. rewrite Rabs_R0. apply Rabs_pos.
      * pose proof (sigma_pos (pre L X o)). rewrite Rabs_pos_eq; lra.
      * unfold rlayer_fun. rewrite RA. apply rsoftmax_bound. rewrite zlen_rlinear; lia.
      * apply tanh_bound.
Qed.

Lemma net_close (ls : list (net_layer A)) : (0 <= ge <= / 4)%R -> Forall (layer_ok A) ls -> Forall finite_layer ls -> Forall (libm_ok ge gl gt) ls ->
  Forall (fun l => l_n_inputs A l <= 8388606) ls ->
  forall Ls m e X (xs : list f32), Forall2 same_shape ls Ls -> chain A (zlen xs) ls -> bounded m X -> close_all e X xs -> net_small ge gl gt ls Ls m e ->
  close_all (net_err ge gl gt ls Ls m e) (rnet_fun Ls X) (net_fun A ls xs).
Proof.
  intros GE OK. induction OK as [|l r OL OK IH]; intros FF LM N8 Ls m e X xs SH CH BM CL SM.
  - inversion SH; subst. exact CL.
  - inversion SH as [|? L ? Lr S1 SR]; subst. apply Forall_cons_iff in FF as [F1 FR]. apply Forall_cons_iff in LM as [L1 LR]. apply Forall_cons_iff in N8 as [N1 NR].
    destruct CH as [C1 C2]. destruct SM as [M1 M2].
    destruct (layer_close l L m e X xs GE OL F1 L1 S1 C1 N1 BM CL M1) as [CL' BM'].
    cbn [net_err]. change (rnet_fun (L :: Lr) X) with (rnet_fun Lr (rlayer_fun L X)). change (net_fun A (l :: r) xs) with (net_fun A r (layer_fun A l xs)).
    apply IH; auto. rewrite zlen_layer_fun32 by exact OL. exact C2.
Qed.

Lemma tracks_close g a X (xs : list f32) : tracks_all g a X xs -> close_all (map (fun t => rel g * t)%R a) X xs.
Proof.
  intros (LA & LX & T). split; [now rewrite zlen_map|]. split; [exact LX|]. intros i Hi. destruct (T i Hi) as (F & D & _).
  split; [exact F|]. unfold nthr, znth in *. rewrite (nth_indep (map (fun t => rel g * t)%R a) 0%R (rel g * 0)%R) by (rewrite map_length; unfold zlen in *; lia).
  rewrite (map_nth (fun t => rel g * t)%R a 0%R). exact D.
Qed.
(** The class of the largest output, when the gap exceeds the errors. *)
Lemma class_close e Y (ys : list f32) c : close_all e Y ys -> 2 <= zlen ys -> 0 <= c < zlen ys ->
  (forall k, 0 <= k < zlen ys -> k <> c -> (nthr Y k + nthr e k + nthr e c < nthr Y c)%R) -> predict_class A ys (zlen ys) = Ret c.
Proof.
  intros (LE & LY & C) N2 Hc G. unfold predict_class. destruct (Z.eqb_spec (zlen ys) 1) as [|_]; [lia|]. destruct (Z.ltb_spec 1 (zlen ys)); [|lia].
  destruct (f32_argmax_ok ef lf tf ys) as (r & Er & H1). change (num A) with f32. rewrite Er. f_equal.
  assert (FIN : forall i w, zget ys i = Ret w -> is_finite w = true).
  { intros i w E. pose proof (zget_bound _ _ _ E) as Hi. rewrite (zget_znth (fzero : f32)) in E by exact Hi. injection E as <-. apply C. exact Hi. }
  destruct H1 as [(-> & H1)|(v & Ev & _ & H1 & _)].
  - exfalso. pose proof (zget_znth (fzero : f32) ys c Hc) as E. specialize (H1 _ (zget_In _ _ _ E)). specialize (FIN _ _ E).
    destruct (znth (fzero : f32) ys c) as [[]|[]| |[]]; try discriminate FIN; discriminate H1.
  - pose proof (zget_bound _ _ _ Ev) as Hr. destruct (Z.eq_dec r c) as [|NE]; [assumption|exfalso].
    pose proof (zget_znth (fzero : f32) ys c Hc) as Ec. pose proof (H1 _ _ Ec) as Q.
    assert (V : v = fnth ys r) by (rewrite (zget_znth (fzero : f32)) in Ev by exact Hr; now injection Ev). subst v.
    destruct (C r Hr) as [Fr Dr]. destruct (C c Hc) as [Fc Dc]. specialize (G r Hr NE).
    assert (fltb (fnth ys r) (fnth ys c) = true); [|congruence]. apply flt32; auto.
    apply Rabs_le_inv in Dr. apply Rabs_le_inv in Dc. lra.
Qed.
Lemma binary_close e Y (ys : list f32) : close_all e Y ys -> zlen ys = 1 -> (nthr e 0 < Rabs (nthr Y 0 - 1 / 2))%R ->
  predict_class A ys (zlen ys) = Ret (if Rlt_dec (1 / 2) (nthr Y 0) then 1 else 0).
Proof.
  intros (LE & LY & C) N1 G. unfold predict_class. rewrite N1. cbn [Z.eqb Pos.eqb]. change (num A) with f32. rewrite (zget_znth (fzero : f32)) by lia. cbn [bind].
  destruct (C 0 ltac:(lia)) as [F D]. set (y := fnth ys 0) in *. apply Rabs_le_inv in D.
  assert (H : B2R (nhalf A : f32) = (1 / 2)%R /\ is_finite (nhalf A : f32) = true).
  { cbn [nhalf f32_arith]. pose proof (binary_normalize_correct 24 128 eq_refl eq_refl mode_NE 1 (-1) false) as K. cbv zeta in K. simpl round_mode in K.
    assert (V : F2R {| Fnum := 1; Fexp := -1 |} = bpow radix2 (-1)) by (unfold F2R; cbn [Fnum Fexp]; apply Rmult_1_l). rewrite V in K.
    rewrite round_generic in K; auto with typeclass_instances.
    2:{ apply generic_format_bpow. vm_compute. discriminate. }
    rewrite Rlt_bool_true in K by (rewrite Rabs_pos_eq by apply bpow_ge_0; apply bpow_lt; lia).
    destruct K as (K1 & K2 & _). split; [|exact K2]. change (B2R (f_of_ZE 1 (-1) : f32) = bpow radix2 (-1)) in K1. rewrite K1. change (bpow radix2 (-1)) with (/ 2)%R. lra. }
  destruct H as [VH FH]. change (nltb A (nhalf A) y) with (fltb (nhalf A : f32) y).
  destruct (Rlt_dec (1 / 2) (nthr Y 0)) as [L|L].
  - rewrite Rabs_pos_eq in G by lra. assert (fltb (nhalf A : f32) y = true) as ->; [|reflexivity]. apply flt32; auto. rewrite VH. lra.
  - rewrite Rabs_left1 in G by lra. destruct (fltb (nhalf A : f32) y) eqn:Q; [|reflexivity]. apply flt32 in Q; auto. rewrite VH in Q. lra.
Qed.
End N.
