(** Inline programs with any feature type and any threshold constants: tree functions, votes, values. *)
From Coq Require Import ZArith List Bool Lia Reals Lra.
From Flocq Require Import Core BinarySingleNaN.
From Verif.Base Require Import Res CInt ListX Float Loops.
From Verif.Model Require Import Common TreesConvert TreesC TreesInline TreesWrapper TreesRun.
From Verif.Spec Require Import TreesSpec TreesCSpec VoteSpec ClassifierSpec.
From Verif.Proof Require Import TreesFlatten TreesForest TreesLeaves TreesWalk Vote TreesEnd TreesHard
  Quantize TreesSoft TreesNodes TreesTop.
Import ListNotations.
Open Scope Z_scope.
Open Scope res_scope.

Section Gen.
Context {K X : Type} (const : pynum -> res K) (lt : X -> K -> bool).
(** The decision of the emitted if statement. *)
Definition decide (features : list X) (f : Z) (th : pynum) : bool :=
  match zget features f, const th with Ret x, Ret k => lt x k | _, _ => false end.

Section Walk.
Context {R : Type}.
Variables (nf nl : Z) (nodes : list (dnode pynum)) (leaf_const : Z -> res R) (ok : K -> bool).
Hypothesis HV : valid_nodes nf nl nodes.
Hypothesis HT : Forall (fun n => exists k, const (d_value n) = Ret k /\ ok k = true) nodes.
Hypothesis HL : forall k, 0 <= k < nl -> exists r, leaf_const k = Ret r.

Lemma c_node_gen : forall fuel c,
  (0 <= c -> zlen nodes - c < Z.of_nat fuel) -> (0 < Z.of_nat fuel) ->
  c < zlen nodes -> (c < 0 -> - c - 1 < nl) ->
  exists t, c_node const leaf_const fuel nodes c = Ret t /\ tests_ok ok t = true /\
    forall features, nf <= zlen features ->
      exists k r, flat_leaf nodes (decide features) c k /\ 0 <= k < nl /\
        leaf_const k = Ret r /\ run_tree lt features t = Ret r.
Proof.
  induction fuel as [|fuel IH]; intros c Hfu Hpos Hc Hneg; [lia|].
  cbn [c_node]. destruct (Z.ltb_spec c 0) as [Hc0|Hc0].
  - destruct (HL (- c - 1)) as [r Hr]; [specialize (Hneg Hc0); lia|]. rewrite Hr. cbn [bind].
    exists (IReturn r). split; auto. split; [reflexivity|]. intros features Hf. exists (- c - 1), r.
    split; [now constructor|]. split; [specialize (Hneg Hc0); lia|]. split; auto.
  - destruct (zget_ok nodes c) as [n Hn]; [lia|]. rewrite (pyget_zget _ _ _ Hn). cbn [bind].
    pose proof HT as HT'. rewrite Forall_forall in HT'. destruct (HT' n (zget_In _ _ _ Hn)) as (kv & Hkv & Hok). rewrite Hkv. cbn [bind].
    destruct (HV c n Hn) as (Hf' & [Vl1 Vl2] & [Vr1 Vr2]).
    destruct (IH (d_left n)) as (tl & El & Tl & Hl).
    { intros Q. specialize (Vl1 Q). lia. } { lia. } { destruct (Z_lt_ge_dec (d_left n) 0); [lia|]. apply Vl1; lia. } { auto. }
    destruct (IH (d_right n)) as (tr & Er & Tr & Hr).
    { intros Q. specialize (Vr1 Q). lia. } { lia. } { destruct (Z_lt_ge_dec (d_right n) 0); [lia|]. apply Vr1; lia. } { auto. }
    rewrite El, Er. cbn [bind]. eexists; split; [reflexivity|]. split; [cbn [tests_ok]; now rewrite Hok, Tl, Tr|]. intros features Hfe.
    destruct (zget_ok features (d_feature n)) as [x Hx]; [lia|].
    assert (Hgo : decide features (d_feature n) (d_value n) = lt x kv).
    { unfold decide. rewrite Hx, Hkv. reflexivity. }
    cbn [run_tree]. rewrite Hx. cbn [bind]. destruct (lt x kv) eqn:Eb.
    + destruct (Hl features Hfe) as (k & r & H1 & H2 & H3 & H4). exists k, r.
      split; [econstructor 2; [exact Hn|]; rewrite Hgo; exact H1|]. auto.
    + destruct (Hr features Hfe) as (k & r & H1 & H2 & H3 & H4). exists k, r.
      split; [econstructor 2; [exact Hn|]; rewrite Hgo; exact H1|]. auto.
Qed.

(** All roots. *)
Lemma roots_gen roots : Forall (fun r => 0 <= r < zlen nodes) roots ->
  exists ts, mapM (c_node const leaf_const (S (length nodes)) nodes) roots = Ret ts /\ zlen ts = zlen roots /\
    forallb (tests_ok ok) ts = true /\
    forall features, nf <= zlen features -> Forall2 (fun t r => exists k v, flat_leaf nodes (decide features) r k /\
      0 <= k < nl /\ leaf_const k = Ret v /\ run_tree lt features t = Ret v) ts roots.
Proof.
  induction 1 as [|r rs Hr F (ts & E & L & T & H)]; [exists []; repeat split; auto|].
  destruct (c_node_gen (S (length nodes)) r) as (t & Et & Tt & Ht).
  { unfold zlen. lia. } { lia. } { lia. } { lia. }
  exists (t :: ts). cbn [mapM]. rewrite Et, E. cbn [bind]. split; [reflexivity|]. split; [rewrite !zlen_cons; lia|].
  split; [cbn; now rewrite Tt, T|]. intros features Hf. constructor; auto.
Qed.
End Walk.

(** ** Hard voting *)
Section Hard.
Variables (nf : Z) (nodes : list (dnode pynum)) (roots : list Z) (leaves : list pyleaf) (n : Z) (ok : K -> bool).
Hypothesis HV : valid_nodes nf (zlen leaves) nodes.
Hypothesis HT : Forall (fun n => exists k, const (d_value n) = Ret k /\ ok k = true) nodes.
Hypothesis Hroots : Forall (fun r => 0 <= r < zlen nodes) roots.
Hypothesis Hnr : 1 <= zlen roots < 2 ^ 24.
Hypothesis Hleaves : Forall (fun l => exists c, l = LClass c /\ 0 <= c < n) leaves.
Hypothesis Hn : 1 <= n <= 127.

Lemma inline_hard_gen : exists p, generate_c_inlined const (nodes, roots, leaves) n 0 = Ret p /\
  ip_n_classes p = n /\ ip_leaf_bits p = 0 /\ zlen (ip_trees p) = zlen roots /\ forallb (tests_ok ok) (ip_trees p) = true /\
  forall features cs, nf <= zlen features ->
    Forall2 (fun r c => flat_reaches nodes leaves (decide features) r (LClass c)) roots cs ->
    Forall2 (fun t c => run_tree lt features t = Ret c) (ip_trees p) cs.
Proof.
  destruct (hard_table leaves n Hleaves Hn) as (lv & Hlv & _ & Hget).
  assert (HL : forall k, 0 <= k < zlen leaves -> exists r, class_leaf_const leaves 0 k = Ret r).
  { intros k Hk. destruct (zget_ok leaves k Hk) as [l Hl]. unfold class_leaf_const. rewrite Z.eqb_refl.
    rewrite (pyget_zget _ _ _ Hl). cbn [bind]. rewrite Forall_forall in Hleaves.
    destruct (Hleaves l) as (c & -> & Hc); [eapply zget_In; eauto|]. simpl. eauto. }
  destruct (roots_gen nf (zlen leaves) nodes (class_leaf_const leaves 0) ok HV HT HL roots Hroots) as (ts & E & L & T & H).
  unfold generate_c_inlined. rewrite Hlv. cbn [bind]. rewrite E. cbn [bind]. eexists. split; [reflexivity|].
  cbn [ip_n_classes ip_leaf_bits ip_trees]. split; [auto|]. split; [auto|]. split; [auto|]. split; [auto|].
  intros features cs Hf Hcs. specialize (H features Hf). clear E L T Hnr Hroots. revert cs Hcs.
  induction H as [|t r ts rs (k & v & F1 & F2 & F3 & F4) H IH]; intros cs Hcs; inversion Hcs as [|? c ? ? (k' & F5 & F6) Hcs']; subst; constructor; [|now apply IH].
  rewrite F4. f_equal. assert (k' = k) by (eapply flat_leaf_det; eauto). subst k'.
  unfold class_leaf_const in F3. rewrite Z.eqb_refl, (pyget_zget _ _ _ F6) in F3. simpl in F3. inv F3.
  apply to_int32_id. apply zget_In in F6. rewrite Forall_forall in Hleaves.
  destruct (Hleaves _ F6) as (c' & Ec & Hc). inv Ec. unfold int32_ok. lia.
Qed.

Lemma classes_range features cs : Forall2 (fun r c => flat_reaches nodes leaves (decide features) r (LClass c)) roots cs ->
  Forall (fun c => 0 <= c < n) cs /\ zlen cs = zlen roots.
Proof.
  intros H. split; [|symmetry; eapply Forall2_zlen; eauto].
  clear Hroots Hnr. induction H as [|r c rs cs (k & _ & Hk) H IH]; constructor; auto.
  apply zget_In in Hk. rewrite Forall_forall in Hleaves. destruct (Hleaves _ Hk) as (c' & E & Hc). inv E. auto.
Qed.

Lemma inline_predict_gen p features cs : generate_c_inlined const (nodes, roots, leaves) n 0 = Ret p -> nf <= zlen features ->
  Forall2 (fun r c => flat_reaches nodes leaves (decide features) r (LClass c)) roots cs ->
  exists c, inline_predict lt p features = Ret c /\ majority n cs c.
Proof.
  intros Hp Hf Hcs. destruct inline_hard_gen as (p' & Ep & F1 & F2 & F3 & _ & F4). rewrite Hp in Ep. injection Ep as <-.
  destruct (classes_range features cs Hcs) as [Hc Hl].
  unfold inline_predict. rewrite F2, Z.eqb_refl. unfold inline_predict_hard. rewrite F1.
  assert (E : foldM (fun votes t =>
      let* _class := run_tree lt features t in
      let* v := zget votes _class in
      let* v' := chk_int32 (v + 1) in
      zset votes _class v') (repeat 0 (Z.to_nat n)) (ip_trees p) = foldM icount_step (repeat 0 (Z.to_nat n)) cs).
  { apply (foldM_map2 (fun t => run_tree lt features t) icount_step). auto. }
  rewrite E. destruct (icount_votes n cs) as (o & E1 & L1 & G1); [lia|auto|lia|].
  rewrite E1. cbn [bind]. apply iargmax_votes; auto; try lia.
  destruct cs; [unfold zlen in Hl, Hnr; simpl in Hl; lia|congruence].
Qed.

Lemma inline_proba_gen p features cs out : generate_c_inlined const (nodes, roots, leaves) n 0 = Ret p -> nf <= zlen features ->
  Forall2 (fun r c => flat_reaches nodes leaves (decide features) r (LClass c)) roots cs -> n <= zlen out ->
  exists out', inline_predict_proba lt p features out n = Ret (0, out') /\ zlen out' = zlen out /\
    (forall c, 0 <= c < n -> exists y, zget out' c = Ret y /\ is_finite y = true /\
       B2R y = rnd32 (IZR (votes cs c) / IZR (zlen roots))).
Proof.
  intros Hp Hf Hcs Ho. destruct inline_hard_gen as (p' & Ep & F1 & F2 & F3 & _ & F4). rewrite Hp in Ep. injection Ep as <-.
  destruct (classes_range features cs Hcs) as [Hc Hl].
  unfold inline_predict_proba. rewrite F2, Z.eqb_refl. unfold inline_proba_hard.
  destruct (foldM_fill (fun _ => fzero : f32) out n) as (o0 & E0 & L0 & G0 & R0); [lia|].
  unfold clear_out. rewrite E0. cbn [bind].
  assert (E : foldM (fun o t =>
      let* _class := run_tree lt features t in
      let* x := zget o _class in zset o _class (fadd x (f_of_Z 1))) o0 (ip_trees p) = foldM count_step o0 cs).
  { apply (foldM_map2 (fun t => run_tree lt features t) count_step). auto. }
  rewrite E. destruct (count_votes n cs o0) as (o1 & E1 & L1 & G1 & R1); [lia|auto|lia|auto|].
  rewrite E1. cbn [bind]. rewrite F3.
  destruct (mean_votes n cs o1 (zlen roots)) as (o2 & E2 & L2 & G2 & R2); [lia|auto|lia|auto|].
  rewrite E2. cbn [bind]. exists o2. split; [auto|]. split; [lia|]. auto.
Qed.
End Hard.
End Gen.
