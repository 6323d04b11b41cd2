(** Proofs about the Mahalanobis distance and the elliptic envelope. *)
From Coq Require Import ZArith List Bool Lia Reals Lra.
From Flocq Require Import Core BinarySingleNaN Plus_error.
From Verif.Base Require Import Res CInt ListX Loops Float Arith Kernels RealSum.
From Verif.Model Require Import Common Distance.
From Verif.Spec Require Import DistanceSpec.
From Verif.Proof Require Import NetKeras.
Import ListNotations.
Open Scope Z_scope.
Open Scope res_scope.

Lemma zget_vec (l : list R) i : 0 <= i < zlen l -> zget (map Fin l) i = Ret (Fin (vec l i)).
Proof. intros H. rewrite zget_map. rewrite (zget_nth l i 0%R H). reflexivity. Qed.
Lemma pyget_vec (l : list R) i : 0 <= i < zlen l -> pyget (map Fin l) i = Ret (Fin (vec l i)).
Proof. intros H. apply pyget_zget. now apply zget_vec. Qed.
Lemma concat_nth {T} (d : T) (w : list (list T)) n i o : Forall (fun row => zlen row = n) w -> 0 <= o < n -> 0 <= i < zlen w ->
  nth (Z.to_nat (i * n + o)) (List.concat w) d = nth (Z.to_nat o) (nth (Z.to_nat i) w []) d.
Proof.
  revert i; induction w as [|r w IH]; intros i H Ho Hi; [unfold zlen in Hi; simpl in Hi; lia|]. inversion H as [|? ? H1 H2]; subst.
  simpl List.concat. destruct (Z.eq_dec i 0) as [->|Ni].
  - simpl. apply app_nth1. unfold zlen in Ho. lia.
  - replace (Z.to_nat i) with (S (Z.to_nat (i - 1))) by lia. simpl nth. rewrite <- (IH (i - 1)); auto.
    2:{ rewrite zlen_cons in Hi. lia. }
    rewrite app_nth2 by (unfold zlen in *; nia). f_equal. unfold zlen in *. nia.
Qed.
Lemma concat_mat (P : list (list R)) n i j : square n P -> 0 <= i < n -> 0 <= j < n ->
  zget (List.concat (map (map Fin) P)) (i * n + j) = Ret (Fin (mat P i j)).
Proof.
  intros [L F] Hi Hj. rewrite <- concat_map. 
  assert (LC : zlen (List.concat P) = n * n).
  { transitivity (zlen P * n); [|now rewrite L]. clear Hi Hj L. induction F as [|r P H F IH]; [reflexivity|]. simpl. rewrite zlen_app, H, zlen_cons. rewrite IH. ring. }
  rewrite zget_map. rewrite (zget_nth (List.concat P) (i * n + j) 0%R) by nia. cbn [bind]. do 2 f_equal.
  unfold mat, vec. rewrite <- (concat_nth 0%R P n i j F Hj) by lia. reflexivity.
Qed.
Lemma zlen_Fin (l : list R) : @zlen xreal (map Fin l) = zlen l.
Proof. apply zlen_map. Qed.

(** The C loop. *)
Theorem distance_ok (P : list (list R)) (x m : list R) : square (zlen x) P -> zlen m = zlen x -> zlen x < 46341 ->
  eml_mahalanobis_distance_squared real_arith (map Fin x) (map Fin m) (List.concat (map (map Fin) P)) (zlen x)
  = Ret (Fin (mahalanobis2 P x m)).
Proof.
  intros S L B. unfold eml_mahalanobis_distance_squared. set (n := zlen x) in *.
  pose (d := fun i => (vec x i - vec m i)%R).
  change (nzero real_arith) with (Fin 0). rewrite (foldM_sumr _ (fun i => sumr n (fun j => mat P j i * d j) * d i)%R).
  - do 2 f_equal. rewrite Rplus_0_l. unfold mahalanobis2, quad. fold n.
    transitivity (sumr n (fun i => sumr n (fun j => d i * mat P j i * d j)))%R.
    + apply sumr_ext. intros i Hi. rewrite <- sumr_scal_r. apply sumr_ext. intros j Hj. fold (d i) (d j). lra.
    + rewrite sumr_swap. apply sumr_ext. intros j Hj. apply sumr_ext. intros i Hi. unfold d. lra.
  - intros s i Hi. cbv beta.
    rewrite (foldM_sumr _ (fun j => mat P j i * d j)%R).
    + cbn [bind]. rewrite !zget_vec by lia. cbn [bind]. simpl. do 2 f_equal. unfold d. lra.
    + intros a j Hj. rewrite chk_int32_ok by (unfold int32_ok; nia). cbn [bind].
      rewrite chk_int32_ok by (unfold int32_ok; nia). cbn [bind].
      change (num real_arith) with xreal. rewrite (concat_mat P n j i S Hj Hi). cbn [bind]. rewrite !zget_vec by lia. cbn [bind]. simpl. do 2 f_equal.
Qed.
(** The Python loop. *)
Theorem py_distance_ok (P : list (list R)) (x m : list R) : square (zlen x) P -> zlen m = zlen x ->
  squared_mahalanobis_distance real_arith (map Fin x) (map Fin m) (map (map Fin) P) = Ret (Fin (mahalanobis2 P x m)).
Proof.
  intros [S1 S2] L. unfold squared_mahalanobis_distance. cbn [num real_arith]. cbv zeta.
  rewrite !zlen_Fin. rewrite L, Z.eqb_refl. cbn [py_assert bind].
  set (n := zlen x) in *. rewrite (zlen_map (map Fin) P), S1.
  replace (forallb _ _) with true.
  2:{ symmetry. apply forallb_forall. intros r Hr. apply in_map_iff in Hr as (q & <- & Hq). rewrite zlen_Fin.
      rewrite Forall_forall in S2. rewrite (S2 q Hq). apply Z.eqb_refl. }
  cbn [py_assert bind]. rewrite Z.eqb_refl. cbn [py_assert bind].
  pose (d := fun i => (vec x i - vec m i)%R).
  change (nzero real_arith) with (Fin 0). rewrite (foldM_sumr _ (fun i => sumr n (fun j => mat P i j * d j) * d i)%R).
  - do 2 f_equal. rewrite Rplus_0_l. unfold mahalanobis2, quad. fold n.
    apply sumr_ext. intros i Hi. rewrite <- sumr_scal_r. apply sumr_ext. intros j Hj. unfold d. lra.
  - intros s i Hi. cbv beta.
    rewrite (foldM_sumr _ (fun j => mat P i j * d j)%R).
    + cbn [bind]. rewrite !pyget_vec by lia. cbn [bind]. simpl. do 2 f_equal. unfold d. lra.
    + intros a j Hj. rewrite (pyget_zget _ i (map Fin (nth (Z.to_nat i) P []))).
      2:{ rewrite zget_map, (zget_nth P i []) by lia. reflexivity. }
      cbn [bind]. rewrite pyget_vec.
      2:{ rewrite Forall_forall in S2. rewrite S2; [lia|]. apply nth_In. unfold zlen in S1. lia. }
      cbn [bind]. rewrite !pyget_vec by lia. cbn [bind]. simpl. do 2 f_equal.
Qed.
(** The sign of a rounded difference is the sign of the difference, for all float32 numbers. *)
Section Sign.
Notation f := f32.
Notation fexp := (SpecFloat.fexp 24 128).
Notation rnd := (round radix2 fexp ZnearestE).
Lemma fsub_sign_finite (a b : f) : is_finite a = true -> is_finite b = true -> fltb (fsub a b) fzero = fltb a b.
Proof.
  intros Fa Fb. unfold fsub.
  assert (VE : Valid_exp fexp) by (apply fexp_correct; reflexivity). assert (ME : Monotone_exp fexp) by apply fexp_monotone.
  pose proof (Bminus_correct 24 128 _ _ mode_NE a b Fa Fb) as H. simpl round_mode in H.
  destruct (Rlt_bool_spec (Rabs (rnd (B2R a - B2R b))) (bpow radix2 128)) as [Hb|Hb].
  - destruct H as (E & Fr & _). rewrite (fltb_correct _ fzero Fr eq_refl), (fltb_correct _ _ Fa Fb). rewrite E. simpl (B2R fzero).
    destruct (Rlt_bool_spec (B2R a) (B2R b)) as [Lt|Ge].
    + apply Rlt_bool_true. assert (rnd (B2R a - B2R b) <= 0)%R.
      { apply round_le_generic; auto with typeclass_instances; [apply generic_format_0|lra]. }
      assert (rnd (B2R a - B2R b) <> 0)%R; [|lra].
      unfold Rminus. apply round_plus_neq_0; auto with typeclass_instances.
      * apply generic_format_B2R.
      * apply generic_format_opp, generic_format_B2R.
      * lra.
    + apply Rlt_bool_false. apply round_ge_generic; auto with typeclass_instances; [apply generic_format_0|lra].
  - destruct H as [E Es]. destruct (Bminus mode_NE a b) as [s|s| |s m e h] eqn:EB; simpl in E; try discriminate.
    + rewrite (fltb_correct _ _ Fa Fb). change (binary_overflow 24 128 mode_NE (Bsign a)) with (SpecFloat.S754_infinity (Bsign a)) in E. injection E as ->.
      assert (NZ : (B2R a - B2R b <> 0)%R).
      { intros Z. rewrite Z, round_0 in Hb by auto with typeclass_instances. rewrite Rabs_R0 in Hb. pose proof (bpow_gt_0 radix2 128). lra. }
      destruct (Bsign a) eqn:Sa; symmetry; simpl; [apply Rlt_bool_true|apply Rlt_bool_false].
      * assert (B2R a <= 0)%R by (destruct a as [[]|[]| |[] ma ea ha]; try discriminate; simpl; try lra; apply F2R_le_0; simpl; lia).
        assert (0 <= B2R b)%R by (destruct b as [[]|[]| |[] mb eb hb]; try discriminate; simpl; try lra; apply F2R_ge_0; simpl; lia). lra.
      * assert (0 <= B2R a)%R by (destruct a as [[]|[]| |[] ma ea ha]; try discriminate; simpl; try lra; apply F2R_ge_0; simpl; lia).
        assert (B2R b <= 0)%R by (destruct b as [[]|[]| |[] mb eb hb]; try discriminate; simpl; try lra; apply F2R_le_0; simpl; lia). lra.
Qed.
Lemma fsub_sign (a b : f) : fltb (fsub a b) fzero = fltb a b.
Proof.
  destruct (is_finite a) eqn:Fa; [destruct (is_finite b) eqn:Fb; [now apply fsub_sign_finite|]|].
  - destruct b as [sb|[]| |sb mb eb hb]; try discriminate; destruct a as [[]|[]| |[] ma ea ha]; try discriminate; reflexivity.
  - destruct a as [sa|[]| |sa ma ea ha]; try discriminate; destruct b as [[]|[]| |[] mb eb hb]; reflexivity.
Qed.
End Sign.
