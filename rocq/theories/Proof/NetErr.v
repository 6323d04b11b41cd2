(** Rounding errors of network inference in float32. *)
From Coq Require Import ZArith List Bool Lia Reals Lra.
From Flocq Require Import Core BinarySingleNaN.
From Verif.Base Require Import Res ListX Loops Float FloatOrder Arith Kernels RealSum.
From Verif.Model Require Import Common Net.
From Verif.Spec Require Import RealSpec NetSpec RoundingSpec.
From Verif.Proof Require Import FloatErr Net.
Import ListNotations.
Open Scope Z_scope.

Lemma sumr_le1 n (f : Z -> R) i : 0 <= i < n -> (forall j, 0 <= j < n -> (0 <= f j)%R) -> (f i <= sumr n f)%R.
Proof.
  intros Hi P. replace n with (i + (1 + (n - i - 1))) by lia. rewrite sumr_split by lia. rewrite sumr_split by lia. rewrite sumr_1, Z.add_0_r.
  assert (0 <= sumr i f)%R by (apply sumr_nonneg; intros; apply P; lia).
  assert (0 <= sumr (n - i - 1) (fun d => f (i + (1 + d))%Z))%R by (apply sumr_nonneg; intros; apply P; lia). lra.
Qed.
Lemma znth_map_zrange {B} (d : B) (h : Z -> B) n i : 0 <= i < n -> znth d (map h (zrange n)) i = h i.
Proof.
  intros H. assert (Q : zget (map h (zrange n)) i = Ret (h i)). { rewrite zget_map, zget_zrange' by lia. reflexivity. }
  rewrite (zget_znth d) in Q; [now injection Q|]. rewrite zlen_map, zlen_zrange'; lia.
Qed.
Lemma Forall_znth {B} (P : B -> Prop) d l i : Forall P l -> 0 <= i < zlen l -> P (znth d l i).
Proof. intros F H. rewrite Forall_forall in F. apply F. eapply zget_In. apply zget_znth. exact H. Qed.

Section N.
Context {ef lf tf : f32 -> f32}.
Notation A := (f32_arith ef lf tf).
Notation fnth := (znth (fzero : f32)).

Definition tracks_all (g : nat) (a X : list R) (xs : list f32) : Prop :=
  zlen a = zlen xs /\ zlen X = zlen xs /\ forall i, 0 <= i < zlen xs -> tracks g (nthr a i) (nthr X i) (fnth xs i).

Definition pre (L : rlayer) (X : list R) (o : Z) : R := (sumr (r_inputs L) (fun i => r_weight L i o * nthr X i) + r_bias L o)%R.
Lemma linear_tracks (l : net_layer A) g a X (xs : list f32) : layer_ok A l -> finite_layer l -> l_n_inputs A l = zlen xs ->
  tracks_all g a X xs -> (INR (g + Z.to_nat (l_n_inputs A l) + 2) <= 8388608)%R -> Forall (fun t => (t <= max32)%R) (layer_mag l a) ->
  forall o, 0 <= o < l_n_outputs A l ->
  tracks (g + Z.to_nat (l_n_inputs A l) + 2) (nthr (layer_mag l a) o) (pre (as_real l) X o) (fnth (linear A l xs) o).
Proof.
  intros (N1 & O1 & LW & _ & LB & _) (FW & FB) EN (LA & LX & TR) G MG o Ho.
  set (n := l_n_inputs A l) in *. set (m := l_n_outputs A l) in *.
  assert (PB : (0 < max32)%R) by apply max32_pos. assert (PT : (0 < tiny32)%R) by apply tiny32_pos.
  pose (wt := r_weight (as_real l)). pose (bs := r_bias (as_real l)).
  assert (EM : nthr (layer_mag l a) o = (sumr n (fun i => Rabs (wt i o) * nthr a i + tiny32) + Rabs (bs o))%R).
  { unfold layer_mag, nthr. fold n m. rewrite (znth_map_zrange 0%R) by lia. reflexivity. }
  rewrite EM. unfold pre. change (r_inputs (as_real l)) with n. fold wt bs.
  unfold linear. fold n m. rewrite (znth_map_zrange (fzero : f32)) by lia.
  assert (BD : (sumr n (fun i => Rabs (wt i o) * nthr a i + tiny32) + Rabs (bs o) <= max32)%R).
  { rewrite <- EM. apply (Forall_znth (fun t => (t <= max32)%R)); [exact MG|]. unfold layer_mag. rewrite zlen_map, zlen_zrange'. fold m. lia. }
  assert (AP : forall i, 0 <= i < n -> (0 <= nthr a i)%R) by (intros i Hi; apply (tracks_T _ _ _ _ (TR i ltac:(lia)))).
  assert (TP : forall i, 0 <= i < n -> (0 <= Rabs (wt i o) * nthr a i)%R) by (intros; apply Rmult_le_pos; auto using Rabs_pos).
  assert (BP : (0 <= Rabs (bs o))%R) by apply Rabs_pos.
  replace (g + Z.to_nat n + 2)%nat with (S (g + 1 + Z.to_nat n)) in * by lia.
  assert (G' : (INR (g + 1 + Z.to_nat n) <= 8388608)%R) by (rewrite S_INR in G; lra).
  apply tracks_add; [|  |exact G'|lra].
  - apply tracks_sum with (term := fun i => fmul (fnth (l_weights A l) (o + i * m)) (fnth xs i)); [reflexivity| |exact G'|lra|lia].
    intros i Hi. replace (g + 1)%nat with (S (0 + g)) by lia.
    assert (IW : 0 <= o + i * m < zlen (l_weights A l)) by (rewrite LW; nia).
    apply tracks_mul.
    + apply tracks_exact. apply (Forall_znth (fun w : f32 => is_finite w = true)); [exact FW|exact IW].
    + apply TR. lia.
    + eapply Rle_trans; [apply le_INR|exact G']. lia.
    + pose proof (sumr_le1 n (fun i => Rabs (wt i o) * nthr a i + tiny32)%R i Hi) as Q. cbv beta in Q.
      specialize (Q ltac:(intros j Hj; specialize (TP j Hj); lra)).
      change (Rabs (B2R (fnth (l_weights A l) (o + i * m)))) with (Rabs (wt i o)). lra.
  - eapply tracks_weaken; [apply tracks_exact|lia|apply Rle_refl].
    apply (Forall_znth (fun w : f32 => is_finite w = true)); [exact FB|]. assert (Q : 0 <= o < zlen (l_biases A l)) by (rewrite LB; exact Ho). exact Q.
Qed.
Lemma zlen_layer_fun32 (l : net_layer A) (xs : list f32) : layer_ok A l -> @zlen f32 (layer_fun A l xs) = l_n_outputs A l.
Proof. intros (_ & O1 & _). apply (zlen_layer_fun A). lia. Qed.
Lemma zlen_linear32 (l : net_layer A) (xs : list f32) : layer_ok A l -> @zlen f32 (linear A l xs) = l_n_outputs A l.
Proof. intros (_ & O1 & _). apply (zlen_linear A). lia. Qed.
(** One element of a layer's output from the one before the activation. *)
Definition act32 (a : activation) (v : f32) : f32 :=
  match a with
  | ActRelu => if fleb v fzero then fzero else v
  | ActLogistic => fdiv (f_of_Z 1) (fadd (f_of_Z 1) (ef (Bopp v)))
  | ActTanh => tf v
  | _ => v
  end.
Lemma layer_fun_nth (l : net_layer A) (xs : list f32) o : layer_ok A l -> l_activation A l <> ActSoftmax -> 0 <= o < l_n_outputs A l ->
  fnth (layer_fun A l xs) o = act32 (l_activation A l) (fnth (linear A l xs) o).
Proof.
  intros OK NS Ho. pose proof (zlen_linear32 l xs OK) as LL. unfold layer_fun.
  assert (MAP : forall h : f32 -> f32, fnth (map h (linear A l xs)) o = h (fnth (linear A l xs) o)).
  { intros h. unfold znth. rewrite <- (map_nth h). apply nth_indep. rewrite map_length. unfold zlen in LL. lia. }
  destruct (l_activation A l); cbn [activate act32]; try reflexivity; try apply MAP. now elim NS.
Qed.
Lemma rlinear_nth L X o : 0 <= o < r_outputs L -> nthr (rlinear L X) o = pre L X o.
Proof. intros Ho. unfold nthr, rlinear. rewrite (znth_map_zrange 0%R) by lia. reflexivity. Qed.
Lemma zlen_rlinear L X : 0 <= r_outputs L -> zlen (rlinear L X) = r_outputs L.
Proof. intros H. unfold rlinear. rewrite zlen_map, zlen_zrange'. lia. Qed.
Lemma rlayer_fun_nth L X o : r_activation L <> ActSoftmax -> 0 <= o < r_outputs L -> nthr (rlayer_fun L X) o = act_fun (r_activation L) (pre L X o).
Proof.
  intros NS Ho. assert (E : rlayer_fun L X = map (act_fun (r_activation L)) (rlinear L X)) by (unfold rlayer_fun; destruct (r_activation L); try reflexivity; now elim NS).
  rewrite E. unfold rlinear. rewrite map_map. unfold nthr. rewrite (znth_map_zrange 0%R) by lia. reflexivity.
Qed.
Lemma zlen_rlayer_fun L X : 0 <= r_outputs L -> zlen (rlayer_fun L X) = r_outputs L.
Proof. intros H. unfold rlayer_fun, rsoftmax. destruct (r_activation L); rewrite zlen_map; now apply zlen_rlinear. Qed.

Lemma layer_tracks (l : net_layer A) g a X (xs : list f32) : layer_ok A l -> finite_layer l -> piecewise_linear l -> l_n_inputs A l = zlen xs ->
  tracks_all g a X xs -> (INR (g + Z.to_nat (l_n_inputs A l) + 2) <= 8388608)%R -> Forall (fun t => (t <= max32)%R) (layer_mag l a) ->
  tracks_all (g + Z.to_nat (l_n_inputs A l) + 2) (layer_mag l a) (rlayer_fun (as_real l) X) (layer_fun A l xs).
Proof.
  intros OK FL AC EN TR G MG. assert (O1 : 1 <= l_n_outputs A l) by apply OK.
  split; [|split].
  - rewrite zlen_layer_fun32 by exact OK. unfold layer_mag. rewrite zlen_map, zlen_zrange'. lia.
  - rewrite zlen_layer_fun32 by exact OK. apply zlen_rlayer_fun. cbn. lia.
  - intros o Ho. rewrite zlen_layer_fun32 in Ho by exact OK. rewrite layer_fun_nth by (auto; destruct AC as [-> | ->]; discriminate).
    rewrite rlayer_fun_nth by (try exact Ho; change (l_activation A l <> ActSoftmax); destruct AC as [-> | ->]; discriminate). pose proof (linear_tracks l g a X xs OK FL EN TR G MG o Ho) as LL.
    change (r_activation (as_real l)) with (l_activation A l).
    destruct AC as [-> | ->]; cbn [act32 act_fun]; [apply tracks_relu; exact LL|exact LL].
Qed.

Lemma depth_shift (ls : list (net_layer A)) g : fold_left (fun g l => g + l_n_inputs A l + 2) ls g = g + net_depth ls.
Proof.
  unfold net_depth. revert g. induction ls as [|l r IH]; intros g; cbn [fold_left]; [lia|]. rewrite IH, (IH (0 + _ + _)). lia.
Qed.
Lemma depth_nonneg (ls : list (net_layer A)) : Forall (layer_ok A) ls -> 0 <= net_depth ls.
Proof.
  intros F. induction F as [|l r (N1 & _) F IH]; [unfold net_depth; cbn; lia|]. unfold net_depth. cbn [fold_left]. rewrite depth_shift. lia.
Qed.
Lemma net_tracks (ls : list (net_layer A)) : Forall (layer_ok A) ls -> Forall finite_layer ls -> Forall piecewise_linear ls ->
  forall g a X (xs : list f32), chain A (zlen xs) ls -> tracks_all g a X xs -> 0 <= Z.of_nat g + net_depth ls <= 8388608 -> mags_ok ls a ->
  tracks_all (g + Z.to_nat (net_depth ls)) (net_mag ls a) (rnet_fun (map as_real ls) X) (net_fun A ls xs).
Proof.
  intros OK. induction OK as [|l r OL OK IH]; intros FF PL g a X xs CH TR G MG.
  - unfold net_depth, net_mag, rnet_fun, net_fun. cbn [fold_left]. rewrite Nat.add_0_r. exact TR.
  - apply Forall_cons_iff in FF as [F1 FR]. apply Forall_cons_iff in PL as [P1 PR]. destruct CH as [C1 C2]. destruct MG as [M1 M2].
    pose proof (depth_nonneg r OK) as DR. assert (N1 : 1 <= l_n_inputs A l) by apply OL.
    assert (ED : net_depth (l :: r) = l_n_inputs A l + 2 + net_depth r) by (unfold net_depth; cbn [fold_left]; rewrite depth_shift; unfold net_depth; lia).
    rewrite ED in *.
    replace (g + Z.to_nat (l_n_inputs A l + 2 + net_depth r))%nat with (g + Z.to_nat (l_n_inputs A l) + 2 + Z.to_nat (net_depth r))%nat by lia.
    change (net_mag (l :: r) a) with (net_mag r (layer_mag l a)). change (rnet_fun (map as_real (l :: r)) X) with (rnet_fun (map as_real r) (rlayer_fun (as_real l) X)).
    change (net_fun A (l :: r) xs) with (net_fun A r (layer_fun A l xs)).
    apply IH; auto.
    + rewrite zlen_layer_fun32 by exact OL. exact C2.
    + apply layer_tracks; auto. apply (Rle_trans _ (IZR 8388608)); [|lra]. rewrite INR_IZR_INZ. apply IZR_le. lia.
    + lia.
Qed.
Lemma tracks_input (xs : list f32) : Forall (fun x : f32 => is_finite x = true) xs ->
  tracks_all 0 (map Rabs (map B2R xs)) (map B2R xs) xs.
Proof.
  intros F. split; [now rewrite !zlen_map|]. split; [now rewrite zlen_map|]. intros i Hi.
  assert (E : nthr (map B2R xs) i = B2R (fnth xs i)) by (unfold nthr, znth; apply (map_nth B2R xs (fzero : f32))).
  assert (E' : nthr (map Rabs (map B2R xs)) i = Rabs (nthr (map B2R xs) i)).
  { unfold nthr, znth. rewrite <- (map_nth Rabs (map B2R xs) 0%R). now rewrite Rabs_R0. }
  rewrite E', E. apply tracks_exact. apply (Forall_znth (fun w : f32 => is_finite w = true)); auto.
Qed.
Lemma net_error (ls : list (net_layer A)) (xs : list f32) : Forall (layer_ok A) ls -> Forall finite_layer ls -> Forall piecewise_linear ls -> chain A (zlen xs) ls ->
  Forall (fun x : f32 => is_finite x = true) xs -> mags_ok ls (map Rabs (map B2R xs)) -> net_depth ls <= 8388608 ->
  tracks_all (Z.to_nat (net_depth ls)) (net_mag ls (map Rabs (map B2R xs))) (rnet_fun (map as_real ls) (map B2R xs)) (net_fun A ls xs).
Proof.
  intros OK FF PL CH FX MG D. pose proof (depth_nonneg ls OK). change (Z.to_nat (net_depth ls)) with (0 + Z.to_nat (net_depth ls))%nat.
  apply net_tracks; auto using tracks_input.
Qed.
End N.
