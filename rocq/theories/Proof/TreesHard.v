(** Hard voting: loadable predict / predict_proba, inline program, agreement (C07-C09). *)
From Coq Require Import ZArith List Bool Lia Reals Lra.
From Flocq Require Import Core BinarySingleNaN.
From Verif.Base Require Import Res CInt ListX Float Loops.
From Verif.Model Require Import Common TreesConvert TreesC TreesInline TreesWrapper.
From Verif.Spec Require Import TreesSpec TreesCSpec VoteSpec.
From Verif.Proof Require Import TreesFlatten TreesForest TreesLeaves TreesWalk Vote TreesEnd.
Import ListNotations.
Open Scope Z_scope.
Open Scope res_scope.

Lemma bind_assoc {A B C} (x : res A) (f : A -> res B) (g : B -> res C) :
  bind (bind x f) g = bind x (fun a => bind (f a) g).
Proof. destruct x; auto. Qed.

Lemma Forall2_exists {A B} (R : A -> B -> Prop) l :
  (forall a, In a l -> exists b, R a b) -> exists l', Forall2 R l l'.
Proof.
  induction l as [|a l IH]; intros H; [exists []; auto|].
  destruct (H a) as [b Hb]; [left; auto|]. destruct IH as [l' Hl']; [intros; apply H; right; auto|].
  exists (b :: l'). auto.
Qed.

Lemma Forall2_impl_In {A B} (R R' : A -> B -> Prop) l l' :
  Forall2 R l l' -> (forall a b, In a l -> In b l' -> R a b -> R' a b) -> Forall2 R' l l'.
Proof.
  induction 1; intros Hi; constructor.
  - apply Hi; auto; left; auto.
  - apply IHForall2. intros; apply Hi; auto; right; auto.
Qed.

Section Forest.
Variables (nf : Z) (nodes : list (dnode pynum)) (roots : list Z) (leaves : list pyleaf).
Hypothesis HV : valid_nodes nf (zlen leaves) nodes.
Hypothesis HF : fits_c nodes.
Hypothesis Hroots : Forall (fun r => 0 <= r < zlen nodes) roots.
Hypothesis Hnr : 1 <= zlen roots <= 2147483647.

Lemma roots_int32 : map to_int32 roots = roots.
Proof.
  destruct HF as [Hs _]. clear -Hroots Hs. induction Hroots; simpl; auto. f_equal; auto.
  apply to_int32_id. unfold int32_ok. lia.
Qed.

(** The generated struct. *)
Lemma loadable_ok n_features n_classes leaf_bits lv :
  leaves_table leaves leaf_bits = Ret lv ->
  exists m, generate_c_loadable (nodes, roots, leaves) n_features n_classes leaf_bits = Ret m /\
    generate_c_nodes nodes = Ret (et_nodes m) /\ et_tree_roots m = roots /\ et_n_trees m = zlen roots /\
    et_leaves m = lv /\ et_leaf_bits m = to_int8 (if (leaf_bits =? 0) || (leaf_bits =? 32) then leaf_bits else 8) /\
    et_n_features m = to_int8 n_features /\ et_n_classes m = to_int8 n_classes /\
    zlen (et_nodes m) = zlen nodes.
Proof.
  intros Hlv. unfold generate_c_loadable.
  destruct (generate_c_nodes_ok nf _ nodes HV HF) as (cn & E & Hl & _).
  rewrite E, Hlv. cbn [bind]. eexists; split; [reflexivity|]. cbn.
  rewrite roots_int32, to_int32_id by (unfold int32_ok; lia).
  repeat (split; [reflexivity|]). exact Hl.
Qed.

Variable features : list Z.
Hypothesis Hfeat : nf <= zlen features.

(** Every root reaches a leaf. *)
Lemma walk_total : exists ks, Forall2 (fun r k => flat_leaf nodes (go_lt features) r k /\ 0 <= k < zlen leaves) roots ks.
Proof.
  apply Forall2_exists. intros r Hr. rewrite Forall_forall in Hroots.
  destruct (generate_c_nodes_ok nf _ nodes HV HF) as (cn & E & Hl & _).
  destruct (predict_tree_ok nf (zlen leaves) nodes cn (mk_eml_trees 0 cn 0 [] 0 [] 0 0 0) features r)
    as (k & _ & H1 & H2 & _); auto. eauto.
Qed.

Section Struct.
Variable m : eml_trees.
Hypothesis Hm1 : generate_c_nodes nodes = Ret (et_nodes m).
Hypothesis Hm2 : et_tree_roots m = roots.
Hypothesis Hm3 : et_n_trees m = zlen roots.

Lemma tree_leaf r k : In r roots -> flat_leaf nodes (go_lt features) r k ->
  eml_trees_predict_tree m r features = Ret k /\ 0 <= k < zlen leaves /\ k <= 32767.
Proof.
  intros Hr Hk. rewrite Forall_forall in Hroots.
  destruct (predict_tree_ok nf (zlen leaves) nodes (et_nodes m) m features r) as (k' & E & H1 & H2 & H3); auto.
  assert (k = k') by (eapply flat_leaf_det; eauto). subst. auto.
Qed.

(** A loop over the trees is a loop over the reached leaves. *)
Lemma trees_loop {S} (step : S -> Z -> res S) s ks :
  Forall2 (fun r k => flat_leaf nodes (go_lt features) r k) roots ks ->
  foldM (fun s i => let* root := zget (et_tree_roots m) i in
     let* leaf := eml_trees_predict_tree m root features in step s leaf) s (zrange (et_n_trees m))
  = foldM step s ks.
Proof.
  intros HK. rewrite Hm2, Hm3. rewrite foldM_index with (f := fun s root =>
     let* leaf := eml_trees_predict_tree m root features in step s leaf).
  apply foldM_map2. eapply Forall2_impl_In; [exact HK|]. intros r k Hr _ Hk.
  now apply tree_leaf.
Qed.
End Struct.

(** ** Leaves are classes *)
Section Hard.
Variable n : Z.
Hypothesis Hleaves : Forall (fun l => exists c, l = LClass c /\ 0 <= c < n) leaves.
Hypothesis Hn : 1 <= n <= 127.

Lemma hard_table : exists lv, leaves_table leaves 0 = Ret lv /\ zlen lv = zlen leaves /\
  forall k c, zget leaves k = Ret (LClass c) -> zget lv k = Ret c.
Proof.
  unfold leaves_table. rewrite Z.eqb_refl.
  destruct (mapM_ok leaf_int leaves) as [zs Hzs].
  { intros l Hl. rewrite Forall_forall in Hleaves. destruct (Hleaves l Hl) as (c & -> & _). simpl. eauto. }
  rewrite Hzs. cbn [bind]. eexists; split; [reflexivity|]. apply mapM_Ret in Hzs.
  split. { rewrite zlen_map. symmetry. eapply Forall2_zlen; eauto. }
  intros k c Hk. destruct (Forall2_zget _ _ _ _ _ Hzs Hk) as (z & Hz & E). simpl in E. inv E.
  apply zget_map_Ret. exists z. split; auto. symmetry. apply to_uint8_id.
  apply zget_In in Hk. rewrite Forall_forall in Hleaves. destruct (Hleaves _ Hk) as (c & E & Hc). inv E.
  unfold uint8_ok. lia.
Qed.

Definition tree_classes (cs : list Z) : Prop :=
  Forall2 (fun r c => flat_reaches nodes leaves (go_lt features) r (LClass c)) roots cs.

Lemma tree_classes_ex ks : Forall2 (fun r k => flat_leaf nodes (go_lt features) r k /\ 0 <= k < zlen leaves) roots ks ->
  exists cs, tree_classes cs /\ Forall (fun c => 0 <= c < n) cs /\ zlen cs = zlen roots /\
    Forall2 (fun k c => zget leaves k = Ret (LClass c)) ks cs.
Proof.
  intros HK.
  assert (H : exists cs, Forall2 (fun k c => zget leaves k = Ret (LClass c) /\ 0 <= c < n) ks cs).
  { apply Forall2_exists. intros k Hk. 
    assert (0 <= k < zlen leaves).
    { clear -HK Hk. induction HK; [destruct Hk|]. destruct Hk as [->|Hk]; auto. tauto. }
    destruct (zget_ok leaves k H) as [l Hl]. rewrite Forall_forall in Hleaves.
    destruct (Hleaves l) as (c & -> & Hc); [eapply zget_In; eauto|]. eauto. }
  destruct H as [cs Hcs]. exists cs. split; [|split; [|split]].
  - unfold tree_classes. clear -HK Hcs. revert cs Hcs; induction HK; intros cs Hcs; inv Hcs; constructor; auto.
    exists y. tauto.
  - clear -Hcs. induction Hcs; constructor; auto. tauto.
  - rewrite <- (Forall2_zlen _ _ _ Hcs). symmetry. eapply Forall2_zlen; eauto.
  - eapply Forall2_impl_In; [exact Hcs|]. tauto.
Qed.

Variable m : eml_trees.
Hypothesis Hm : generate_c_loadable (nodes, roots, leaves) nf n 0 = Ret m.
Hypothesis Hsmall : zlen roots < 2 ^ 24.
Hypothesis Hnf : 0 <= nf <= 127.

Lemma hard_fields : generate_c_nodes nodes = Ret (et_nodes m) /\ et_tree_roots m = roots /\
  et_n_trees m = zlen roots /\ et_leaf_bits m = 0 /\ et_n_features m = nf /\ et_n_classes m = n /\
  leaves_table leaves 0 = Ret (et_leaves m).
Proof.
  destruct hard_table as (lv & Hlv & _ & _).
  destruct (loadable_ok nf n 0 lv Hlv) as (m' & E & H1 & H2 & H3 & H4 & H5 & H6 & H7 & H8).
  rewrite Hm in E. inv E.
  rewrite H6, H7, to_int8_id, to_int8_id by (unfold int8_ok; lia). auto 10.
Qed.

Lemma loadable_votes out0 cs :
  tree_classes cs ->
  foldM (vote_hard m features) out0 (zrange (et_n_trees m)) = foldM count_step out0 cs.
Proof.
  intros Hcs. destruct hard_fields as (F1 & F2 & F3 & _ & _ & _ & F7).
  destruct walk_total as [ks HK].
  assert (HK1 : Forall2 (fun r k => flat_leaf nodes (go_lt features) r k) roots ks)
    by (eapply Forall2_impl_In; [exact HK|tauto]).
  pose proof (trees_loop m F1 F2 F3 (fun out leaf => let* c := zget (et_leaves m) leaf in count_step out c) out0 ks HK1) as E.
  etransitivity; [exact E|].
  destruct hard_table as (lv & Hlv & _ & Hget). rewrite F7 in Hlv. inv Hlv.
  assert (HC : Forall2 (fun k c => zget (et_leaves m) k = Ret c) ks cs).
  { unfold tree_classes in Hcs. clear -HK Hcs Hget. revert cs Hcs; induction HK; intros cs Hcs; inversion Hcs as [|? ? ? ? Hfr Hrest]; subst; constructor; auto.
    destruct Hfr as (k & H1 & H2). apply Hget. destruct H as [H _].
    assert (k = y) by (eapply flat_leaf_det; eauto). subst. auto. }
  now apply foldM_map2.
Qed.

Lemma Forall_classes cs : tree_classes cs -> Forall (fun c => 0 <= c < n) cs /\ zlen cs = zlen roots.
Proof.
  intros H. split.
  - unfold tree_classes in H. clear -H Hleaves. induction H; constructor; auto.
    destruct H as (k & _ & Hk). apply zget_In in Hk. rewrite Forall_forall in Hleaves.
    destruct (Hleaves _ Hk) as (c & E & Hc). inv E. auto.
  - symmetry. eapply Forall2_zlen; eauto.
Qed.

(** eml_trees_predict_proba with a buffer of at least n elements. *)
Lemma loadable_proba_hard out cs : n <= zlen out -> tree_classes cs ->
  exists out', eml_trees_predict_proba m features out n = Ret (EmlOk, out') /\ zlen out' = zlen out /\
    (forall c, 0 <= c < n -> exists y, zget out' c = Ret y /\ is_finite y = true /\
       B2R y = rnd32 (IZR (votes cs c) / IZR (zlen roots))) /\
    (forall i, n <= i -> zget out' i = zget out i).
Proof.
  intros Hout Hcs. destruct hard_fields as (F1 & F2 & F3 & F4 & F5 & F6 & F7).
  destruct (Forall_classes cs Hcs) as [Hc Hl].
  unfold eml_trees_predict_proba. rewrite F6, Z.eqb_refl. cbn [negb].
  destruct (foldM_fill (fun _ => fzero : f32) out n) as (o0 & E0 & L0 & G0 & R0); [lia|].
  unfold clear_out. rewrite E0. cbn [bind]. rewrite F4, Z.eqb_refl.
  rewrite loadable_votes with (cs := cs) by auto.
  destruct (count_votes n cs o0) as (o1 & E1 & L1 & G1 & R1); [lia|auto|lia|auto|].
  rewrite E1. cbn [bind]. rewrite F3.
  destruct (mean_votes n cs o1 (zlen roots)) as (o2 & E2 & L2 & G2 & R2); [lia|auto|lia|auto|].
  rewrite E2. cbn [bind]. exists o2. split; [auto|]. split; [lia|]. split; [auto|].
  intros i Hi. rewrite R2, R1, R0; auto.
Qed.

Lemma loadable_predict_hard cs : n <= 30 -> tree_classes cs ->
  exists c, eml_trees_predict m features nf = Ret c /\ majority n cs c.
Proof.
  intros Hn30 Hcs. destruct hard_fields as (F1 & F2 & F3 & F4 & F5 & F6 & F7).
  destruct (Forall_classes cs Hcs) as [Hc Hl].
  unfold eml_trees_predict. rewrite F5, to_int8_id, Z.eqb_refl by (unfold int8_ok; lia). cbn [negb].
  rewrite F6. unfold EMTREES_MAX_CLASSES. destruct (Z.ltb_spec 30 n); [lia|].
  assert (H30 : zlen (repeat (fzero : f32) (Z.to_nat 30)) = 30) by apply zlen_repeat.
  destruct (loadable_proba_hard (repeat fzero (Z.to_nat 30)) cs) as (o & E & L & G & _); [lia|auto|].
  rewrite E. cbn [bind].
  apply argmax_votes with (n_trees := zlen roots); auto; lia.
Qed.

(** ** Inline *)
Variable p : inline_prog Z.
Hypothesis Hp : generate_c_inlined_int16 (nodes, roots, leaves) n 0 = Ret p.

Lemma inline_hard_fields : ip_n_classes p = n /\ ip_leaf_bits p = 0 /\ zlen (ip_trees p) = zlen roots /\
  forall cs, tree_classes cs -> Forall2 (fun t c => run_tree Z.ltb features t = Ret c) (ip_trees p) cs.
Proof.
  pose proof Hp as Hq. unfold generate_c_inlined_int16, generate_c_inlined in Hq.
  destruct hard_table as (lv & Hlv & _ & Hget). rewrite Hlv in Hq. cbn [bind] in Hq. invbind Hq.
  injection Hq as Hq. rewrite <- Hq. cbn [ip_n_classes ip_leaf_bits ip_trees]. split; [auto|]. split; [auto|]. apply mapM_Ret in E. rename a into ts.
  split. { symmetry. eapply Forall2_zlen; eauto. }
  intros cs Hcs. unfold tree_classes in Hcs.
  assert (HT : forall i nd, zget nodes i = Ret nd -> exists k, py_int (d_value nd) = Ret k).
  { intros i nd Hnd. destruct HF as [_ HF']. destruct (HF' i nd Hnd) as (_ & (k & Hk & _) & _). eauto. }
  assert (HL : forall k, 0 <= k < zlen leaves -> exists r, class_leaf_const leaves 0 k = Ret r).
  { intros k Hk. destruct (zget_ok leaves k Hk) as [l Hl]. unfold class_leaf_const. rewrite Z.eqb_refl.
    rewrite (pyget_zget _ _ _ Hl). cbn [bind]. rewrite Forall_forall in Hleaves.
    destruct (Hleaves l) as (c & -> & Hc); [eapply zget_In; eauto|]. simpl. eauto. }
  clear Hq Hp p Hm m. rewrite Forall_forall in Hroots. revert cs Hcs. clear Hnr Hsmall.
  induction E as [|r t rs ts Ert E IH]; intros cs Hcs; inv Hcs; constructor.
  - destruct (c_node_ok nf (zlen leaves) nodes (class_leaf_const leaves 0) HV HT HL (S (length nodes)) r)
      as (t' & Et & Ht).
    { intros Q. unfold zlen in *. lia. } { lia. } { apply Hroots; left; auto. }
    { specialize (Hroots r (or_introl eq_refl)). lia. }
    rewrite Ert in Et. inv Et.
    destruct (Ht features Hfeat) as (k & c & K1 & K2 & K3 & K4). rewrite K4. f_equal.
    destruct H1 as (k' & K1' & K5). assert (k' = k) by (eapply flat_leaf_det; eauto). subst k'.
    unfold class_leaf_const in K3. rewrite Z.eqb_refl, (pyget_zget _ _ _ K5) in K3. simpl in K3. inv K3.
    apply to_int32_id. apply zget_In in K5. rewrite Forall_forall in Hleaves.
    destruct (Hleaves _ K5) as (c & Ec & Hc). inv Ec. unfold int32_ok. lia.
  - apply IH; auto. intros x Hx. apply Hroots. right; auto.
Qed.

Lemma inline_predict_majority cs : tree_classes cs ->
  exists c, inline_predict_int16 p features = Ret c /\ majority n cs c.
Proof.
  intros Hcs. destruct inline_hard_fields as (F1 & F2 & F3 & F4).
  destruct (Forall_classes cs Hcs) as [Hc Hl].
  unfold inline_predict_int16, inline_predict. rewrite F2, Z.eqb_refl. unfold inline_predict_hard.
  rewrite F1.
  assert (E : foldM (fun votes t =>
      let* _class := run_tree Z.ltb features t in
      let* v := zget votes _class in
      let* v' := chk_int32 (v + 1) in
      zset votes _class v') (repeat 0 (Z.to_nat n)) (ip_trees p) = foldM icount_step (repeat 0 (Z.to_nat n)) cs).
  { apply (foldM_map2 (fun t => run_tree Z.ltb features t) icount_step). auto. }
  rewrite E. destruct (icount_votes n cs) as (o & E1 & L1 & G1); [lia|auto|lia|].
  rewrite E1. cbn [bind]. apply iargmax_votes; auto; try lia.
  destruct cs; [unfold zlen in Hl, Hnr; simpl in Hl; lia|congruence].
Qed.

Lemma inline_proba_eq out cs out_length : out_length = n -> tree_classes cs ->
  inline_predict_proba_int16 p features out out_length =
  (let* (_, o) := eml_trees_predict_proba m features out out_length in Ret (0, o)).
Proof.
  intros -> Hcs. destruct inline_hard_fields as (F1 & F2 & F3 & F4).
  destruct hard_fields as (M1 & M2 & M3 & M4 & M5 & M6 & M7).
  unfold inline_predict_proba_int16, inline_predict_proba. rewrite F2, Z.eqb_refl. unfold inline_proba_hard.
  unfold eml_trees_predict_proba. rewrite M6, Z.eqb_refl, M4, Z.eqb_refl. cbn [negb].
  destruct (clear_out out n) as [o0|]; [|reflexivity]. cbn [bind].
  rewrite loadable_votes with (cs := cs) by auto.
  assert (E : foldM (fun o t =>
      let* _class := run_tree Z.ltb features t in
      let* x := zget o _class in zset o _class (fadd x (f_of_Z 1))) o0 (ip_trees p) = foldM count_step o0 cs).
  { apply (foldM_map2 (fun t => run_tree Z.ltb features t) count_step). auto. }
  rewrite E, F3, M3. destruct (foldM count_step o0 cs) as [o1|]; [|reflexivity]. cbn [bind].
  destruct (mean_out o1 n (zlen roots)); reflexivity.
Qed.
End Hard.
End Forest.
