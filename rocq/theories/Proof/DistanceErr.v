(** Rounding errors of the squared Mahalanobis distance in float32. *)
From Coq Require Import ZArith List Bool Lia Reals Lra.
From Flocq Require Import Core BinarySingleNaN.
From Verif.Base Require Import Res CInt ListX Loops Float FloatOrder Arith Kernels RealSum.
From Verif.Model Require Import Common Distance.
From Verif.Spec Require Import RealSpec DistanceSpec RoundingSpec.
From Verif.Proof Require Import FloatErr NetErr Distance.
Import ListNotations.
Open Scope Z_scope.
Open Scope res_scope.

Lemma vec_B2R (x : list f32) i : vec (map B2R x) i = B2R (znth (fzero : f32) x i).
Proof. unfold vec, znth. apply (map_nth B2R x (fzero : f32)). Qed.
Lemma zlen_concat {T} (P : list (list T)) n : Forall (fun r => zlen r = n) P -> zlen (List.concat P) = zlen P * n.
Proof. intros F. induction F as [|r P H F IH]; [reflexivity|]. simpl. rewrite zlen_app, H, zlen_cons, IH. ring. Qed.

Lemma distance_error ef lf tf (P : list (list f32)) (x m : list f32) :
  let n := zlen x in let PR := map (map B2R) P in let xr := map B2R x in let mr := map B2R m in
  zlen P = n -> Forall (fun r => zlen r = n) P -> zlen m = n -> n < 46341 ->
  Forall (fun v : f32 => is_finite v = true) (List.concat P ++ x ++ m) ->
  (forall i, 0 <= i < n -> (Rabs (vec xr i - vec mr i) <= max32)%R) ->
  (forall i, 0 <= i < n -> (sumr n (fun j => Rabs (mat PR j i) * Rabs (vec xr j - vec mr j) + tiny32) <= max32)%R) ->
  (mahalanobis_mag PR xr mr <= max32)%R ->
  exists d, eml_mahalanobis_distance_squared (f32_arith ef lf tf) x m (List.concat P) n = Ret d /\
    tracks (Z.to_nat (2 * n + 4)) (mahalanobis_mag PR xr mr) (mahalanobis2 PR xr mr) d.
Proof.
  intros n PR xr mr LP FP LM Hn FF HD HI HM.
  assert (N0 : 0 <= n) by apply zlen_nonneg.
  rewrite !Forall_app in FF. destruct FF as (FPf & Fx & Fm).
  pose (dd := fun i => fsub (znth (fzero : f32) x i) (znth (fzero : f32) m i)).
  pose (pp := fun j i => znth (fzero : f32) (List.concat P) (j * n + i)).
  pose (acc := fun i => fold_left (fun s j => fadd s (fmul (pp j i) (dd j))) (zrange n) fzero).
  exists (fold_left (fun s i => fadd s (fmul (acc i) (dd i))) (zrange n) fzero).
  assert (LC : zlen (List.concat P) = n * n) by (rewrite (zlen_concat P n FP), LP; reflexivity).
  split.
  { unfold eml_mahalanobis_distance_squared. apply foldM_pure_ext. intros s i Hi. apply zrange_In in Hi.
    rewrite (foldM_pure_ext _ (fun (s : f32) j => fadd s (fmul (pp j i) (dd j)))).
    - cbn [bind]. change (num (f32_arith ef lf tf)) with f32. rewrite (zget_znth (fzero : f32) x) by lia. rewrite (zget_znth (fzero : f32) m) by lia. reflexivity.
    - intros t j Hj. apply zrange_In in Hj. rewrite !chk_int32_ok by (unfold int32_ok; nia). cbn [bind]. rewrite chk_int32_ok by (unfold int32_ok; nia). cbn [bind].
      change (num (f32_arith ef lf tf)) with f32. rewrite (zget_znth (fzero : f32) (List.concat P)) by (rewrite LC; nia).
      rewrite (zget_znth (fzero : f32) x) by lia. rewrite (zget_znth (fzero : f32) m) by lia. reflexivity. }
  pose (D := fun i => (vec xr i - vec mr i)%R).
  assert (TD : forall i, 0 <= i < n -> tracks 1 (Rabs (D i)) (D i) (dd i)).
  { intros i Hi. unfold D, xr, mr. rewrite !vec_B2R. apply tracks_diff.
    - apply (Forall_znth (fun v : f32 => is_finite v = true)); auto.
    - apply (Forall_znth (fun v : f32 => is_finite v = true)); auto. rewrite LM. exact Hi.
    - rewrite <- !vec_B2R. apply HD. exact Hi. }
  assert (VP : forall i j, 0 <= i < n -> 0 <= j < n -> mat PR j i = B2R (pp j i)).
  { intros i j Hi Hj. unfold mat, PR, pp, znth. rewrite (concat_nth (fzero : f32) P n j i FP Hi) by lia.
    rewrite (nth_indep _ _ (map B2R ([] : list f32))) by (rewrite map_length; unfold zlen in LP; lia). rewrite (map_nth (map B2R) P []). apply vec_B2R. }
  assert (FPP : forall i j, 0 <= i < n -> 0 <= j < n -> is_finite (pp j i) = true).
  { intros i j Hi Hj. apply (Forall_znth (fun v : f32 => is_finite v = true)); auto. rewrite LC. nia. }
  pose proof tiny32_pos as PT. pose proof max32_pos as PM.
  assert (GG : (INR (2 + Z.to_nat n) <= 8388608)%R) by (rewrite INR_IZR_INZ; apply IZR_le; lia).
  assert (GG2 : (INR (2 + Z.to_nat n + 1) <= 8388608)%R) by (rewrite INR_IZR_INZ; apply IZR_le; lia).
  assert (GG3 : (INR (S (2 + Z.to_nat n + 1) + Z.to_nat n) <= 8388608)%R) by (rewrite INR_IZR_INZ; apply IZR_le; lia).
  assert (PA : forall i, 0 <= i < n -> forall j, 0 <= j < n -> (0 <= Rabs (mat PR j i) * Rabs (D j) + tiny32)%R).
  { intros i Hi j Hj. assert (0 <= Rabs (mat PR j i) * Rabs (D j))%R by (apply Rmult_le_pos; apply Rabs_pos). lra. }
  assert (TA : forall i, 0 <= i < n -> tracks (2 + Z.to_nat n) (sumr n (fun j => Rabs (mat PR j i) * Rabs (D j) + tiny32)%R) (sumr n (fun j => mat PR j i * D j)%R) (acc i)).
  { intros i Hi. specialize (HI i Hi). fold D in HI. unfold acc. apply tracks_sum with (term := fun j => fmul (pp j i) (dd j)); [reflexivity| |exact GG|unfold D; lra|lia].
    intros j Hj. change 2%nat with (S (0 + 1)). apply tracks_mul.
    - rewrite (VP i j Hi Hj). apply tracks_exact. auto.
    - apply TD. exact Hj.
    - eapply Rle_trans; [apply le_INR|exact GG]. lia.
    - pose proof (sumr_le1 n (fun j => Rabs (mat PR j i) * Rabs (D j) + tiny32)%R j Hj) as Q. cbv beta in Q.
      specialize (Q (PA i Hi)). unfold D in *. lra. }
  unfold mahalanobis_mag in HM |- *. cbv zeta in HM |- *.
  replace (zlen xr) with n in * by (unfold xr; now rewrite zlen_map).
  replace (mahalanobis2 PR xr mr) with (sumr n (fun i => sumr n (fun j => mat PR j i * D j) * D i))%R.
  2:{ unfold mahalanobis2, quad. replace (zlen xr) with n by (unfold xr; now rewrite zlen_map).
      transitivity (sumr n (fun i => sumr n (fun j => D i * mat PR j i * D j)))%R.
      - apply sumr_ext. intros i Hi. rewrite <- sumr_scal_r. apply sumr_ext. intros j Hj. ring.
      - rewrite sumr_swap. apply sumr_ext. intros j Hj. apply sumr_ext. intros i Hi. unfold D. ring. }
  replace (Z.to_nat (2 * n + 4)) with (S (2 + Z.to_nat n + 1) + Z.to_nat n)%nat by lia.
  assert (PB : forall i, 0 <= i < n -> (0 <= sumr n (fun j => Rabs (mat PR j i) * Rabs (D j) + tiny32) * Rabs (D i) + tiny32)%R).
  { intros i Hi. assert (0 <= sumr n (fun j => Rabs (mat PR j i) * Rabs (D j) + tiny32) * Rabs (D i))%R; [|lra].
    apply Rmult_le_pos; [|apply Rabs_pos]. apply sumr_nonneg. intros j Hj. apply (PA i Hi j Hj). }
  apply tracks_sum with (term := fun i => fmul (acc i) (dd i)); [reflexivity| |exact GG3|unfold D; lra|lia].
  intros i Hi. apply tracks_mul; [apply TA; exact Hi|apply TD; exact Hi|exact GG2|].
  pose proof (sumr_le1 n (fun i => sumr n (fun j => Rabs (mat PR j i) * Rabs (D j) + tiny32) * Rabs (D i) + tiny32)%R i Hi PB) as Q. cbv beta in Q.
  unfold D in *. lra.
Qed.
