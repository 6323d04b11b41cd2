(** Converted nearest-neighbours models, from the estimator to the returned numbers. *)
From Coq Require Import String ZArith List Bool Lia Reals Lra.
From Flocq Require Import Core BinarySingleNaN.
From Verif.Base Require Import Res CInt ListX Loops Float FloatOrder Kernels.
From Verif.Model Require Import Common Text TreesConvert TreesC TreesWrapper Neighbors Cgen Harness TreesRun NeighborsRun.
From Verif.Spec Require Import VoteSpec NeighborsSpec NeighborsCSpec HarnessSpec RunSpec KnnSpec.
From Verif.Proof Require Import Vote Quantize Neighbors Harness RunRows.
Import Verif.Spec.HarnessSpec ListNotations.
Open Scope Z_scope.
Open Scope res_scope.

Lemma py_int_num v z : int_num v z -> py_int v = Ret z.
Proof.
  destruct v as [y|x]; cbn; [now intros ->|]. intros [F V].
  assert (T : ftrunc x = z).
  { apply eq_IZR. unfold ftrunc. rewrite Btrunc_correct by reflexivity. rewrite round_FIX0 by auto with typeclass_instances.
    now rewrite V, Ztrunc_IZR. }
  destruct x; try discriminate; now rewrite T.
Qed.
Lemma int16_const_num v z : int_num v z -> int16_ok z -> int16_const v = Ret z.
Proof.
  intros H B. unfold int16_const. rewrite (py_int_num _ _ H). cbn [bind]. unfold int16_ok in B.
  destruct (Z.leb_spec (-32768) z); [|lia]. destruct (Z.leb_spec z 32767); [|lia]. reflexivity.
Qed.
Lemma member_ok lo hi z : lo <= z <= hi -> member_const lo hi z = Ret z.
Proof. intros H. unfold member_const. destruct (Z.leb_spec lo z); [|lia]. destruct (Z.leb_spec z hi); [|lia]. reflexivity. Qed.

Lemma int16_consts vs zs : Forall2 int_num vs zs -> Forall int16_ok zs -> mapM int16_const vs = Ret zs.
Proof.
  intros H F. apply mapM_Ret. induction H; inversion F; subst; constructor; auto. now apply int16_const_num.
Qed.
Lemma concat_num data rows : Forall2 (Forall2 int_num) data rows -> Forall2 int_num (concat data) (concat rows).
Proof. induction 1; cbn; [constructor|]. apply Forall2_app; assumption. Qed.

Section run.
Context (nf k : Z) (data : list (list pynum)) (labels : list pynum) (items : dataset).
Hypothesis T : training_set data labels items.
Hypothesis I : items <> [].
Hypothesis L : zlen items <= 32767.
Hypothesis G : Forall (fun it => zlen (fst it) = nf /\ Forall int16_ok (fst it) /\ int16_ok (snd it)) items.
Hypothesis N : 1 <= nf <= 65535.
Hypothesis K : 0 <= k <= 32767.

Definition the_model : neighbors_model :=
  mk_neighbors nf (zlen items) (zlen items) (concat (map fst items)) (map snd items) k.

Lemma generated : c_generate_neighbors data labels k = Ret the_model.
Proof using All.
  destruct T as [TD TL]. unfold c_generate_neighbors.
  assert (LD : zlen data = zlen items) by (unfold zlen; rewrite (Forall2_len _ _ _ TD), map_length; reflexivity).
  assert (F0 : exists row rest, data = row :: rest /\ zlen row = nf).
  { clear - I G TD. destruct items as [|[r l] its]; [congruence|]. inversion TD as [|row r' d ds H1 H2]; subst. exists row, d. split; [reflexivity|].
    assert (E : zlen r = nf) by (apply Forall_inv in G as (E & _); exact E). rewrite <- E. unfold zlen. now rewrite (Forall2_len _ _ _ H1). }
  destruct F0 as (row & rest & Ed & Er). rewrite Ed at 1. cbn [bind]. rewrite Er.
  rewrite (int16_consts _ (concat (map fst items))).
  2: { apply concat_num. exact TD. }
  2: { apply Forall_concat, Forall_map. eapply Forall_impl; [|exact G]. intros it (_ & H & _). exact H. }
  cbn [bind]. rewrite (int16_consts _ (map snd items) TL).
  2: { apply Forall_map. eapply Forall_impl; [|exact G]. intros it (_ & _ & H). exact H. }
  cbn [bind]. rewrite LD. pose proof (zlen_nonneg items). rewrite !member_ok by lia. cbn [bind].
  reflexivity.
Qed.

Lemma concat_len : zlen (concat (map fst items)) = zlen items * nf.
Proof using G.
  clear - G. induction items as [|it its IH]; [reflexivity|]. apply Forall_cons_iff in G as [(E & _) F]. cbn [map concat].
  rewrite zlen_app, zlen_cons, (IH F), E. ring.
Qed.
Lemma the_stores : stores (concat (map fst items)) (map snd items) the_model items.
Proof using G L N.
  pose proof concat_len as CL. pose proof (zlen_nonneg items).
  constructor; cbn.
  - reflexivity.
  - lia.
  - lia.
  - eapply Forall_impl; [|exact G]. intros it (A & B & _). auto.
  - rewrite CL. lia.
  - rewrite zlen_map. lia.
  - now rewrite skipn_all, app_nil_r.
  - now rewrite skipn_all2, app_nil_r by (rewrite map_length; lia).
Qed.

Lemma func_run ds values row features : zlen ds = zlen items -> zlen row = nf -> int16_row row features -> holds row values ->
  (forall r l, In (r, l) items -> sq_dist features r < 2 ^ 30) -> 0 <= k <= zlen items ->
  exists sel, k_nearest int_dist items features k sel /\
  (Forall label_ok (labels_of items sel) -> exists c, knn_predict_func the_model ds values (zlen row) = Ret (f_of_Z c) /\
     (k = 0 /\ c = -1 \/ 1 <= k /\ majority 10 (labels_of items sel) c)) /\
  (~ Forall label_ok (labels_of items sel) -> knn_predict_func the_model ds values (zlen row) = Ret (f_of_Z (-5))).
Proof using All.
  intros LD LR R H C Bk. destruct (cast_int16 nf row features values LR R H) as (LF & E & _).
  assert (F16 : Forall int16_ok features).
  { clear - R. induction R as [|v z row fs (_ & _ & B) R IH]; constructor; auto. }
  destruct (predict_ok _ _ _ _ features ds (-1) k the_stores LF F16 C ltac:(lia) eq_refl Bk) as (ds' & sel & KN & A & B).
  exists sel. split; [exact KN|]. unfold knn_predict_func. change (nm_n_features the_model) with nf. change (nm_n_items the_model) with (zlen items).
  rewrite LR, E. cbn [bind]. rewrite <- LD. rewrite LF in A, B. split.
  - intros O. destruct (A O) as (c & Ec & M). exists c. split; [|exact M]. now rewrite Ec.
  - intros O. now rewrite (B O).
Qed.
End run.

Theorem knn_run nf k data labels items metric_inf X : In metric_inf [None; Some "loadable"%string] ->
  training_set data labels items -> items <> [] -> zlen items <= 32767 ->
  Forall (fun it => zlen (fst it) = nf /\ Forall int16_ok (fst it) /\ 0 <= snd it < 10) items ->
  1 <= nf <= 127 -> 1 <= k <= zlen items -> int16_rows nf X ->
  (forall row features r l, In row X -> int16_row row features -> In (r, l) items -> sq_dist features r < 2 ^ 30) ->
  exists m out, knn_init "euclidean" "uniform" metric_inf data labels k = Ret m /\ knn_predict m X = Ret out /\ zlen out = zlen X /\
  forall i row, zget X i = Ret row -> exists features sel c,
    int16_row row features /\ k_nearest int_dist items features k sel /\
    zget out i = Ret (PyInt c) /\ majority 10 (labels_of items sel) c.
Proof.
  intros HM T I L G0 N K HX C.
  assert (G : Forall (fun it => zlen (fst it) = nf /\ Forall int16_ok (fst it) /\ int16_ok (snd it)) items).
  { eapply Forall_impl; [|exact G0]. intros it (A & B & D). split; [exact A|]. split; [exact B|]. unfold int16_ok. lia. }
  exists (the_model nf k items).
  destruct (int16_rows_fit nf X HX ltac:(lia)) as (NX & GX & AX & LX).
  set (ds := repeat (mk_dist 0 0) (Z.to_nat (nm_n_items (the_model nf k items)))).
  assert (LD : zlen ds = zlen items) by (unfold ds; rewrite zlen_repeat; cbn; pose proof (zlen_nonneg items); lia).
  destruct (predict_classes (knn_predict_func (the_model nf k items) ds) X
    (fun row c => exists features sel, int16_row row features /\ k_nearest int_dist items features k sel /\ majority 10 (labels_of items sel) c)
    NX GX AX LX) as (out & E & LO & R).
  { intros row values In_ Hv. destruct HX as (_ & _ & FX). rewrite Forall_forall in FX. destruct (FX row In_) as (LR & fs & R).
    destruct (func_run nf k data labels items T I L G ltac:(lia) ltac:(lia) ds values row fs LD LR R Hv) as (sel & KN & A & _).
    { intros r l Hi. eapply C; eauto. } { lia. }
    destruct A as (c & Ec & [[Z0 _]|[_ M]]).
    { destruct KN as (_ & _ & BB & _). unfold labels_of. apply Forall_map, Forall_forall. intros j Hj. destruct (zget_ok items j (BB j Hj)) as [it Hit].
      rewrite Hit. rewrite Forall_forall in G0. destruct (G0 it (zget_In _ _ _ Hit)) as (_ & _ & D). exact D. }
    { lia. }
    exists c. split; [exact Ec|]. split; [|eauto]. destruct M as [Bc _]. lia. }
  exists out. split.
  { unfold knn_init. cbn. destruct HM as [<-|[<-|[]]]; cbn; eapply generated; eauto; lia. }
  split; [exact E|]. split; [exact LO|]. intros i row Hr. destruct (R i row Hr) as (c & Ec & fs & sel & A & B & M). exists fs, sel, c. auto.
Qed.

(** ** The content of the static array makes no difference *)
Lemma fill_indep {A} (g : Z -> res A) n ds1 ds2 : zlen ds1 = n -> zlen ds2 = n ->
  foldM (fun ds i => let* v := g i in zset ds i v) ds1 (zrange n) = foldM (fun ds i => let* v := g i in zset ds i v) ds2 (zrange n).
Proof.
  intros L1 L2. pose proof (zlen_nonneg ds1). set (st := fun ds i => let* v := g i in zset ds i v).
  assert (P : forall m, 0 <= m -> m <= n ->
    (exists e, foldM st ds1 (zrange m) = Err e /\ foldM st ds2 (zrange m) = Err e) \/
    (exists r1 r2, foldM st ds1 (zrange m) = Ret r1 /\ foldM st ds2 (zrange m) = Ret r2 /\ zlen r1 = n /\ zlen r2 = n /\
       forall i, 0 <= i < m -> zget r1 i = zget r2 i)).
  { intros m Hm. pattern m. revert m Hm. apply natlike_ind.
    - intros _. right. exists ds1, ds2. rewrite zrange_0 by lia. cbn. repeat split; auto. intros; lia.
    - intros m Hm IH Hn. unfold Z.succ in *. rewrite zrange_S by lia. rewrite !foldM_app.
      destruct (IH ltac:(lia)) as [(e & E1 & E2)|(r1 & r2 & E1 & E2 & R1 & R2 & Q)]; rewrite E1, E2; cbn [bind foldM]; [left; eauto|].
      assert (S1 : forall r, st r m = let* v := g m in zset r m v) by reflexivity. rewrite !S1.
      destruct (g m) as [v|e]; cbn [bind]; [|left; eauto].
      rewrite !zset_ok by lia. cbn [bind]. right. eexists _, _. split; [reflexivity|]. split; [reflexivity|].
      rewrite !zlen_list_set. split; [exact R1|]. split; [exact R2|]. intros i Hi.
      rewrite !zget_list_set by lia. destruct (Z.eqb_spec m i); [reflexivity|]. apply Q. lia. }
  destruct (P n ltac:(lia) ltac:(lia)) as [(e & E1 & E2)|(r1 & r2 & E1 & E2 & R1 & R2 & Q)]; rewrite E1, E2; [reflexivity|].
  f_equal. apply zget_eq; [lia|]. intros i Hi. apply Q. lia.
Qed.
Lemma bind_assoc {A B C} (x : res A) (f : A -> res B) (g : B -> res C) : (let* b := (let* a := x in f a) in g b) = (let* a := x in let* b := f a in g b).
Proof. destruct x; reflexivity. Qed.
Theorem no_history m ds1 ds2 values length : zlen ds1 = nm_n_items m -> zlen ds2 = nm_n_items m ->
  knn_predict_func m ds1 values length = knn_predict_func m ds2 values length.
Proof.
  intros L1 L2. unfold knn_predict_func. destruct (cast_row _ _ _ _ _) as [fs|]; cbn [bind]; [|reflexivity].
  unfold eml_neighbors_predict, eml_neighbors_infer. rewrite Z.leb_refl. cbn [negb].
  destruct (length =? nm_n_features m); cbn [negb bind]; [|reflexivity].
  pose proof (fill_indep (fun i => let* off := chk_int32 (nm_n_features m * i) in
        let* d := eml_distance_euclidean_int16_at fs (nm_data m) off length in Ret (mk_dist (to_int16 i) d)) (nm_n_items m) ds1 ds2 L1 L2) as E.
  assert (Q : forall ds, foldM (fun ds i => let* off := chk_int32 (nm_n_features m * i) in
        let* d := eml_distance_euclidean_int16_at fs (nm_data m) off length in zset ds i (mk_dist (to_int16 i) d)) ds (zrange (nm_n_items m)) =
     foldM (fun ds i => let* v := (let* off := chk_int32 (nm_n_features m * i) in
        let* d := eml_distance_euclidean_int16_at fs (nm_data m) off length in Ret (mk_dist (to_int16 i) d)) in zset ds i v) ds (zrange (nm_n_items m))).
  { intros ds. apply foldM_ext. intros s i. destruct (chk_int32 _); cbn [bind]; [|reflexivity].
    destruct (eml_distance_euclidean_int16_at _ _ _ _); reflexivity. }
  rewrite !Q, E. reflexivity.
Qed.

(** ** What can be returned *)
Lemma votes_labels self ds k o : nb_count_votes self ds k = Ret (Some o) ->
  zlen o = 10 /\ forall c v, zget o c = Ret v -> v = 0 \/ In c (nm_labels self).
Proof.
  unfold nb_count_votes. intros E.
  set (st := fun (acc : option (list Z)) i => _) in E.
  assert (P : forall l a r, foldM st a l = Ret r -> (forall vs, a = Some vs -> zlen vs = 10 /\ forall c v, zget vs c = Ret v -> v = 0 \/ In c (nm_labels self)) ->
     forall vs, r = Some vs -> zlen vs = 10 /\ forall c v, zget vs c = Ret v -> v = 0 \/ In c (nm_labels self)).
  { clear E. induction l as [|i l IH]; intros a r E H; cbn [foldM] in E.
    - injection E as <-. exact H.
    - apply bind_Ret in E as (a' & E1 & E2). eapply IH; [exact E2|]. intros vs ->. unfold st in E1. destruct a as [vs0|]; [|discriminate].
      apply bind_Ret in E1 as (d & _ & E1). apply bind_Ret in E1 as (lab & El & E1).
      destruct ((lab <? 0) || (EML_NEIGHBORS_MAX_CLASSES <=? lab)); [discriminate|].
      apply bind_Ret in E1 as (v0 & Ev & E1). apply bind_Ret in E1 as (vs' & Es & E1). injection E1 as <-.
      destruct (H vs0 eq_refl) as [L0 Q]. pose proof (zget_bound _ _ _ Ev). rewrite zset_ok in Es by lia. injection Es as <-.
      rewrite zlen_list_set. split; [exact L0|]. intros c v Hc. rewrite zget_list_set in Hc by lia.
      destruct (Z.eqb_spec lab c); [subst c; right; eapply zget_In; exact El|]. eapply Q. exact Hc. }
  eapply (P _ _ _ E); [|reflexivity]. intros vs [= <-]. split; [reflexivity|]. intros c v Hc. left.
  pose proof (zget_bound _ _ _ Hc) as B. change (zlen _) with 10 in B. change [0;0;0;0;0;0;0;0;0;0] with (repeat 0 10) in Hc. rewrite zget_repeat in Hc by lia. now injection Hc.
Qed.
Lemma most_voted_in vs c : zlen vs = 10 -> most_voted vs = Ret c -> c = -1 \/ exists v, zget vs c = Ret v /\ 0 < v.
Proof.
  unfold most_voted. intros L E. apply bind_Ret in E as ((c0, m) & E & R). injection R as ->.
  set (st := (fun '(c, m) i => _) : Z * Z -> Z -> res (Z * Z)) in E.
  assert (P : forall l a, foldM st a l = Ret (c, m) -> (0 <= snd a /\ (fst a = -1 \/ exists v, zget vs (fst a) = Ret v /\ 0 < v)) ->
     c = -1 \/ exists v, zget vs c = Ret v /\ 0 < v).
  { clear E. induction l as [|i l IH]; intros [c1 m1] E [H0 H]; cbn [foldM] in E.
    - injection E as -> ->. exact H.
    - apply bind_Ret in E as ([c2 m2] & E1 & E2). eapply IH; [exact E2|]. cbn in H0, H |- *. unfold st in E1.
      apply bind_Ret in E1 as (v & Ev & E1). destruct (Z.ltb_spec m1 v); injection E1 as <- <-; [|auto]. split; [lia|]. right. exists v. split; [exact Ev|lia]. }
  eapply P; [exact E|]. cbn. lia.
Qed.
Lemma func_range m ds values length y : knn_predict_func m ds values length = Ret y ->
  exists c, y = f_of_Z c /\ (In c (nm_labels m) /\ 0 <= c < 10 \/ In c [-1; -5]).
Proof.
  unfold knn_predict_func. intros E. apply bind_Ret in E as (fs & _ & E). apply bind_Ret in E as ([[err d] out] & E & R).
  unfold eml_neighbors_predict in E. apply bind_Ret in E as ([e1 d1] & EI & E).
  assert (He1 : e1 = EmlOk \/ e1 = EmlSizeMismatch).
  { unfold eml_neighbors_infer in EI. destruct (negb _); [injection EI as <- _; auto|]. destruct (negb _); [injection EI as <- _; auto|].
    apply bind_Ret in EI as (d2 & _ & EI). injection EI as <- _. auto. }
  destruct He1 as [-> | ->].
  2: { injection E as <- _ _. exists (-1). split; [now injection R|]. right. cbn. auto. }
  apply bind_Ret in E as ([[e2 d2] c2] & EF & E). unfold eml_neighbors_find_nearest in EF.
  destruct (negb _); [injection EF as <- _ _; injection E as <- _ _; exists (-1); split; [now injection R|]; right; cbn; auto|].
  apply bind_Ret in EF as (d3 & _ & EF). apply bind_Ret in EF as (vt & EV & EF). destruct vt as [vs|].
  2: { injection EF as <- _ _. injection E as <- _ _. exists (-5). split; [now injection R|]. right. cbn. auto. }
  apply bind_Ret in EF as (c & EM & EF). injection EF as <- _ <-. injection E as <- _ <-.
  destruct (votes_labels _ _ _ _ EV) as [LV Q]. destruct (most_voted_in _ _ LV EM) as [-> | (v & Ev & P)].
  - exists (-1). split; [now injection R|]. right. cbn. auto.
  - pose proof (zget_bound _ _ _ Ev). rewrite to_int16_id in R by (unfold int16_ok; lia). exists c. split; [now injection R|].
    left. destruct (Q c v Ev); [lia|]. split; [assumption|lia].
Qed.
Theorem knn_range m X out : knn_predict m X = Ret out ->
  zlen out = zlen X /\ Forall (fun o => exists c, o = PyInt c /\ (In c (nm_labels m) /\ 0 <= c < 10 \/ In c [-1; -5])) out.
Proof.
  intros E. destruct (predict_sound _ _ _ _ E) as (_ & _ & _ & L & S). split; [exact L|]. apply Forall_forall. intros o Ho.
  apply In_zget in Ho as [i Hi]. pose proof (zget_bound _ _ _ Hi). destruct (zget_ok X i ltac:(lia)) as [row Hr].
  destruct (S i row Hr) as (values & y & o' & _ & _ & FY & O & C). rewrite Hi in O. injection O as <-.
  destruct (func_range _ _ _ _ _ FY) as (c & -> & Q). exists c. split; [|exact Q].
  apply convert_reported in C as (z & -> & Q'). assert (Bc : -5 <= c < 10) by (destruct Q as [[_ B]|[<-|[<-|[]]]]; lia).
  destruct (@f_of_Z_exact 53 1024 _ _ c ltac:(lia)) as [Vc Fc]. now rewrite (Q' c Fc Vc ltac:(lia)).
Qed.

(** ** Values that do not fit *)
Lemma mapM_Err_first {A B} (f : A -> res B) l x e : In x l -> f x = Err e -> (forall y, In y l -> exists r, f y = Ret r \/ f y = Err e) -> mapM f l = Err e.
Proof.
  induction l as [|a l IH]; intros I E F; [destruct I|]. cbn [mapM]. destruct (F a ltac:(left; auto)) as (r & [Ea|Ea]); rewrite Ea; cbn [bind]; [|reflexivity].
  destruct I as [->|I]; [congruence|]. rewrite (IH I E). { reflexivity. } intros y Hy. apply F. right. exact Hy.
Qed.
Theorem stored metric weights inference data labels k m : knn_init metric weights inference data labels k = Ret m ->
  Forall2 (fun v z => py_int v = Ret z /\ int16_ok z) (concat data) (nm_data m) /\
  Forall2 (fun v z => py_int v = Ret z /\ int16_ok z) labels (nm_labels m) /\
  nm_n_items m = zlen data /\ nm_k m = k.
Proof.
  unfold knn_init. intros E. apply bind_Ret in E as ([] & _ & E).
  destruct (String.eqb _ _); [|discriminate]. unfold c_generate_neighbors in E.
  apply bind_Ret in E as (nf & _ & E). apply bind_Ret in E as (d & Ed & E). apply bind_Ret in E as (l & El & E).
  apply bind_Ret in E as (nf' & _ & E). apply bind_Ret in E as (n & En & E). apply bind_Ret in E as (n' & _ & E). apply bind_Ret in E as (k' & Ek & E).
  injection E as <-. cbn.
  assert (M : forall lo hi z r, member_const lo hi z = Ret r -> r = z).
  { intros lo hi z r. unfold member_const. destruct (_ && _); intros [= ->]; auto. }
  assert (C : forall vs zs, mapM int16_const vs = Ret zs -> Forall2 (fun v z => py_int v = Ret z /\ int16_ok z) vs zs).
  { intros vs zs H. apply mapM_Ret in H. induction H as [|v z vs zs H H' IH]; constructor; auto.
    unfold int16_const in H. apply bind_Ret in H as (z' & P & H). destruct ((-32768 <=? z') && (z' <=? 32767)) eqn:B; [|discriminate].
    injection H as ->. split; [exact P|]. unfold int16_ok. lia. }
  split; [now apply C|]. split; [now apply C|]. split; [now apply M in En|now apply M in Ek].
Qed.
