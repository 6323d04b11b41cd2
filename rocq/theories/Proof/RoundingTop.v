(** The network API against the exact network. *)
From Coq Require Import ZArith List Bool Lia Reals Lra.
From Flocq Require Import Core BinarySingleNaN.
From Verif.Base Require Import Res CInt ListX Loops Float Arith Kernels RealSum.
From Verif.Model Require Import Common Net Distance.
From Verif.Spec Require Import NetSpec DistanceSpec RoundingSpec.
From Verif.Proof Require Import Net NetApi NetFun Distance FloatErr NetErr NetClose DistanceErr.
Import ListNotations.
Open Scope Z_scope.
Open Scope res_scope.

Section N.
Context {ef lf tf : f32 -> f32}.
Notation A := (f32_arith ef lf tf).
Lemma relu_close (m : net A) (x : list f32) : net_ok A m (zlen x) -> relu_net_fits m x ->
  close_all (relu_bound m x) (exact_outputs m x) (net_fun A (n_layers_arr A m) x).
Proof.
  intros (_ & OK & CH & _) (F & P & FX & MG & D). apply tracks_close. now apply net_error.
Qed.
Lemma fits_close ge gl gt (m : net A) Ls b e X (x : list f32) : (0 <= ge <= / 4)%R -> net_ok A m (zlen x) -> net_fits ge gl gt m Ls b e X x ->
  close_all (net_err ge gl gt (n_layers_arr A m) Ls b e) (rnet_fun Ls X) (net_fun A (n_layers_arr A m) x).
Proof.
  intros G (_ & OK & CH & _) (F & L & N & SH & LB & B & C & SM). apply net_close; auto. split; auto.
Qed.

Lemma zlen_outputs (m : net A) (x : list f32) : net_ok A m (zlen x) -> 2 <= n_layers A m -> 1 <= zlen (net_fun A (n_layers_arr A m) x).
Proof.
  intros OK H. destruct (infer_full A m x OK H) as (m' & rest & _ & _ & _ & _ & _ & L). exact L.
Qed.
Lemma infer_close (m : net A) (x : list f32) e Y : net_ok A m (zlen x) -> 2 <= n_layers A m ->
  close_all e Y (net_fun A (n_layers_arr A m) x) ->
  exists m' (ys rest : list f32), eml_net_infer A m x (zlen x) = Ret (EmlOk, m') /\ same_net A m m' /\ activations2 A m' = ys ++ rest /\ close_all e Y ys.
Proof.
  intros OK H C. destruct (infer_full A m x OK H) as (m' & rest & E & S & E2 & _). exists m', (net_fun A (n_layers_arr A m) x), rest. auto.
Qed.
Lemma regress_close (m : net A) (x out : list f32) e Y : net_ok A m (zlen x) -> 2 <= n_layers A m ->
  close_all e Y (net_fun A (n_layers_arr A m) x) -> zlen out = zlen Y ->
  exists m' (ys : list f32), eml_net_regress A m x (zlen x) out (zlen out) = Ret (EmlOk, m', ys) /\ close_all e Y ys.
Proof.
  intros OK H C LO. assert (LY : zlen Y = zlen (net_fun A (n_layers_arr A m) x)) by apply C.
  destruct (regress_ok A m x out OK H) as (m' & _ & E); [exact (eq_trans LO LY)|]. exists m', (net_fun A (n_layers_arr A m) x). auto.
Qed.
Lemma regress1_close junk (m : net A) (x : list f32) e Y : net_ok A m (zlen x) -> 2 <= n_layers A m ->
  close_all e Y (net_fun A (n_layers_arr A m) x) -> zlen Y = 1 ->
  exists m' (y : f32), eml_net_regress1 A junk m x (zlen x) = Ret (y, m') /\ is_finite y = true /\ (Rabs (B2R y - nthr Y 0) <= nthr e 0)%R.
Proof.
  intros OK H C LO. assert (LY : zlen Y = zlen (net_fun A (n_layers_arr A m) x)) by apply C.
  destruct (regress1_ok A junk m x OK H) as (m' & _ & E). exists m', (znth (fzero : f32) (net_fun A (n_layers_arr A m) x) 0).
  destruct (Z.eqb_spec (zlen (net_fun A (n_layers_arr A m) x)) 1) as [Q|Q]; [|change (num A) with f32 in *; congruence].
  split; [exact E|]. apply C. change (num A) with f32 in *. lia.
Qed.
(** The class with the largest exact output, when no other comes within the errors. *)
Lemma predict_close (m : net A) (x : list f32) e Y c : net_ok A m (zlen x) -> 2 <= n_layers A m ->
  close_all e Y (net_fun A (n_layers_arr A m) x) -> 2 <= zlen Y -> 0 <= c < zlen Y ->
  (forall k, 0 <= k < zlen Y -> k <> c -> (nthr Y k + nthr e k + nthr e c < nthr Y c)%R) ->
  exists m', eml_net_predict A m x (zlen x) = Ret (c, m') /\ same_net A m m'.
Proof.
  intros OK H C N2 Hc G. assert (LY : zlen Y = zlen (net_fun A (n_layers_arr A m) x)) by apply C.
  destruct (predict_ok A m x OK H) as (m' & S & E). exists m'. split; [|exact S]. etransitivity; [exact E|]. clear E.
  rewrite LY in *. pose proof (@class_close ef lf tf e Y _ c C N2 Hc G) as K. change (num A) with f32 in *. rewrite K. reflexivity.
Qed.
Lemma predict1_close (m : net A) (x : list f32) e Y : net_ok A m (zlen x) -> 2 <= n_layers A m ->
  close_all e Y (net_fun A (n_layers_arr A m) x) -> zlen Y = 1 -> (nthr e 0 < Rabs (nthr Y 0 - 1 / 2))%R ->
  exists m', eml_net_predict A m x (zlen x) = Ret ((if Rlt_dec (1 / 2) (nthr Y 0) then 1 else 0), m') /\ same_net A m m'.
Proof.
  intros OK H C N1 G. assert (LY : zlen Y = zlen (net_fun A (n_layers_arr A m) x)) by apply C.
  destruct (predict_ok A m x OK H) as (m' & S & E). exists m'. split; [|exact S]. etransitivity; [exact E|]. clear E.
  rewrite LY in *. pose proof (@binary_close ef lf tf e Y _ C N1 G) as K. change (num A) with f32 in *. rewrite K. reflexivity.
Qed.
(** predict_proba with three or more outputs: the outputs; with one: the second probability is the output. *)
Lemma proba_close (m : net A) (x out : list f32) e Y : net_ok A m (zlen x) -> 2 <= n_layers A m ->
  close_all e Y (net_fun A (n_layers_arr A m) x) -> 3 <= zlen Y -> zlen out = zlen Y ->
  exists st m' (ps : list f32), eml_net_predict_proba A m x (zlen x) out (zlen out) = Ret (st, m', ps) /\ close_all e Y ps.
Proof.
  intros OK H C N3 LO. assert (LY : zlen Y = zlen (net_fun A (n_layers_arr A m) x)) by apply C.
  destruct (proba_ok A m x out OK H) as (m' & _ & E).
  { destruct (Z.eqb_spec (zlen (net_fun A (n_layers_arr A m) x)) 1) as [Q|Q]; [rewrite Q in LY; lia|exact (eq_trans LO LY)]. }
  cbv zeta in E. destruct (Z.leb_spec (zlen (net_fun A (n_layers_arr A m) x)) 2) as [Q|Q] in E; [change (num A) with f32 in *; lia|]. eexists _, m', _. split; [exact E|exact C].
Qed.
Lemma rel_le (g : Z) : 0 <= g <= 8388608 -> (rel (Z.to_nat g) <= 2 * IZR g * u24)%R.
Proof.
  intros H. pose proof (rel_lin (Z.to_nat g)) as K. rewrite INR_IZR_INZ, Z2Nat.id in K by lia. apply K. apply IZR_le. lia.
Qed.
End N.

(** ** The elliptic envelope *)
Section D.
Context {ef lf tf : f32 -> f32}.
Notation A := (f32_arith ef lf tf).
Lemma outlier_close (P : list (list f32)) (x m : list f32) (b : f32) (d : f32) (t : R) D g :
  is_finite b = true -> tracks g t D d -> (rel g * t < Rabs (- D - B2R b))%R ->
  fltb (Bopp d) b = if Rlt_dec (- D) (B2R b) then true else false.
Proof.
  intros FB (F & E & _) G. apply Rabs_le_inv in E. assert (FO : is_finite (Bopp d) = true) by now rewrite is_finite_Bopp.
  destruct (Rlt_dec (- D) (B2R b)) as [L|L].
  - apply flt32; auto. rewrite B2R_Bopp. rewrite Rabs_left in G by lra. lra.
  - destruct (fltb (Bopp d) b) eqn:Q; [|reflexivity]. apply flt32 in Q; auto. rewrite B2R_Bopp in Q. rewrite Rabs_pos_eq in G by lra. lra.
Qed.
Lemma mahalanobis_tracks (P : list (list f32)) (x m : list f32) :
  let n := zlen x in let PR := map (map B2R) P in let xr := map B2R x in let mr := map B2R m in
  square n PR -> zlen m = n -> n < 46341 -> all_finite (List.concat P ++ x ++ m) -> mahalanobis_small PR xr mr ->
  exists d : f32, eml_mahalanobis_distance_squared A x m (List.concat P) n = Ret d /\
    tracks (Z.to_nat (2 * n + 4)) (mahalanobis_mag PR xr mr) (mahalanobis2 PR xr mr) d.
Proof.
  intros n PR xr mr [S1 S2] LM Hn FF (H1 & H2 & H3). unfold PR in S1, S2. rewrite zlen_map in S1. rewrite Forall_map in S2.
  unfold xr in H1, H2. rewrite zlen_map in H1, H2.
  apply distance_error; auto. eapply Forall_impl; [|exact S2]. intros r. cbv beta. now rewrite zlen_map.
Qed.
Lemma mahalanobis_close (P : list (list f32)) (x m : list f32) :
  let n := zlen x in let PR := map (map B2R) P in let xr := map B2R x in let mr := map B2R m in
  square n PR -> zlen m = n -> n < 46341 -> all_finite (List.concat P ++ x ++ m) -> mahalanobis_small PR xr mr ->
  exists d : f32, eml_mahalanobis_distance_squared A x m (List.concat P) n = Ret d /\ is_finite d = true /\
    (Rabs (B2R d - mahalanobis2 PR xr mr) <= rel (Z.to_nat (2 * n + 4)) * mahalanobis_mag PR xr mr)%R.
Proof.
  intros n PR xr mr S LM Hn FF SM. destruct (mahalanobis_tracks P x m S LM Hn FF SM) as (d & E & F & D & _). exists d. auto.
Qed.
Lemma envelope_close (P : list (list f32)) (x m : list f32) (b : f32) :
  let n := zlen x in let PR := map (map B2R) P in let xr := map B2R x in let mr := map B2R m in
  square n PR -> zlen m = n -> n < 46341 -> all_finite (List.concat P ++ x ++ m) -> mahalanobis_small PR xr mr -> is_finite b = true ->
  let D := mahalanobis2 PR xr mr in
  (rel (Z.to_nat (2 * n + 4)) * mahalanobis_mag PR xr mr < Rabs (- D - B2R b))%R ->
  exists o d, eml_elliptic_envelope_predict A (generate_code A m P b) x n = Ret (o, d) /\
    (o = 1 <-> (- D < B2R b)%R) /\ (o = 0 <-> (B2R b < - D)%R).
Proof.
  intros n PR xr mr S LM Hn FF SM FB D G. destruct (mahalanobis_tracks P x m S LM Hn FF SM) as (d & E & T).
  pose proof (outlier_close P x m b d _ _ _ FB T G) as Q. fold D in Q.
  assert (DB : (0 <= rel (Z.to_nat (2 * n + 4)) * mahalanobis_mag PR xr mr)%R).
  { destruct T as (_ & K & _). eapply Rle_trans; [apply Rabs_pos|exact K]. }
  assert (NE : (- D <> B2R b)%R). { intros C. rewrite C in G. unfold Rminus in G. rewrite Rplus_opp_r, Rabs_R0 in G. fold PR xr mr in DB. lra. }
  exists (if Rlt_dec (- D) (B2R b) then 1 else 0), (Some d). split.
  - unfold eml_elliptic_envelope_predict, generate_code. cbn [e_n_features e_means e_precision e_decision_boundary].
    assert (EL : (n =? zlen m) = true) by (apply Z.eqb_eq; auto). change (num A) with f32. rewrite EL. cbn [negb].
    match goal with |- bind ?t _ = _ => replace t with (@Ret f32 d) by (symmetry; exact E) end. cbn [bind]. cbv zeta.
    assert (K : nltb A (nsub A (nneg A d) b) (nzero A) = fltb (Bopp d) b) by apply (fsub_sign (Bopp d)).
    rewrite K, Q. unfold D, PR, xr, mr. destruct (Rlt_dec _ (B2R b)); reflexivity.
  - destruct (Rlt_dec (- D) (B2R b)); split; split; intros; try lra; try lia; try discriminate; auto.
Qed.
End D.
