(** The user-level statements for trees (C07-C10), from the fitted model on. *)
From Coq Require Import ZArith List Bool Lia Reals Lra.
From Flocq Require Import Core BinarySingleNaN.
From Verif.Base Require Import Res CInt ListX Float Loops.
From Verif.Model Require Import Common TreesConvert TreesC TreesInline TreesWrapper.
From Verif.Spec Require Import TreesSpec TreesCSpec VoteSpec ClassifierSpec.
From Verif.Proof Require Import TreesFlatten TreesForest TreesLeaves TreesWalk Vote TreesEnd TreesHard
  Quantize TreesSoft TreesNodes TreesTop.
Import ListNotations.
Open Scope Z_scope.
Open Scope res_scope.

Definition hard_args (lb : option Z) : Prop := In lb [None; Some 0; Some 1].

Section HardApi.
Variables (nf n : Z) (trees : sk_forest) (lb : option Z) (dt : option dtype_arg) (w : wrapper) (m : eml_trees).
Hypothesis Hfit : fitted nf (class_row n) trees.
Hypothesis Hn : 1 <= n <= 127.
Hypothesis Hlb : hard_args lb.
Hypothesis Hnt : zlen trees < 2 ^ 24.
Hypothesis Hw : wrapper_init true (Some MLoadable) dt lb trees nf n = Ret w.
Hypothesis HF : fits_c (forest_nodes (w_forest w)).

Lemma api_forest : exists nodes roots leaves, w_forest w = (nodes, roots, leaves) /\
  forest_facts nf trees (hard_leaf n) LeafArgmax 0 nodes roots leaves /\ fits_c nodes /\
  w_leaf_bits w = 0 /\ w_n_features w = nf /\ w_n_classes w = n /\ nf <= 127 /\ 1 <= nf.
Proof.
  apply wrapper_init_Ret in Hw as (E & H1 & H2 & H3 & _ & H4). pose proof (hard_bits lb Hlb) as Hb.
  rewrite Hb in *. change (choose_leaf true 0) with LeafArgmax in E.
  destruct (hard_forest nf n trees Hfit Hn) as (nodes & roots & leaves & E' & HFF & _).
  rewrite E in E'. injection E' as E'. exists nodes, roots, leaves. rewrite E' in HF.
  pose proof (ft_features _ _ _ Hfit). auto 12.
Qed.

Lemma api_save : exists m', save_loadable w = Ret m'.
Proof.
  destruct api_forest as (nodes & roots & leaves & E & HFF & HC & B1 & B2 & B3 & _).
  destruct HFF as (V & R & L & P & _). unfold save_loadable. rewrite E, B1, B2, B3.
  pose proof (trees_pos _ _ _ Hfit).
  destruct (hard_table leaves n P Hn) as (lv & Hlv & _).
  destruct (loadable_ok nf nodes roots leaves V HC R ltac:(lia) nf n 0 lv Hlv) as (m' & E' & _). eauto.
Qed.

Hypothesis Hm : save_loadable w = Ret m.

Theorem api_predict features cs : n <= 30 -> zlen features = nf ->
  Forall2 (tree_class features) trees cs ->
  exists c, eml_trees_predict m features nf = Ret c /\ majority n cs c.
Proof.
  intros H30 Hfe HC. destruct api_forest as (nodes & roots & leaves & E & HFF & HC' & B1 & B2 & B3 & B4 & B5).
  pose proof HFF as (V & R & L & P & _). unfold save_loadable in Hm. rewrite E, B1, B2, B3 in Hm.
  pose proof (trees_pos _ _ _ Hfit).
  eapply (loadable_predict_hard nf nodes roots leaves V HC' R ltac:(lia) features ltac:(lia) n P Hn m Hm); try lia.
  eapply tree_class_leaf; eauto.
Qed.

Theorem api_proba features cs out : zlen features = nf -> n <= zlen out ->
  Forall2 (tree_class features) trees cs ->
  exists out', eml_trees_predict_proba m features out n = Ret (EmlOk, out') /\ zlen out' = zlen out /\
    (forall c, 0 <= c < n -> exists y, zget out' c = Ret y /\ is_finite y = true /\
       B2R y = rnd32 (IZR (votes cs c) / IZR (zlen trees))) /\
    (forall i, n <= i -> zget out' i = zget out i).
Proof.
  intros Hfe Ho HC. destruct api_forest as (nodes & roots & leaves & E & HFF & HC' & B1 & B2 & B3 & B4 & B5).
  pose proof HFF as (V & R & L & P & _). unfold save_loadable in Hm. rewrite E, B1, B2, B3 in Hm.
  pose proof (trees_pos _ _ _ Hfit). rewrite <- L.
  eapply (loadable_proba_hard nf nodes roots leaves V HC' R ltac:(lia) features ltac:(lia) n P Hn m Hm); try lia.
  eapply tree_class_leaf; eauto.
Qed.

Variable dt' : option dtype_arg.
Variables (w' : wrapper) (p : inline_prog Z).
Hypothesis Hw' : wrapper_init true (Some MInline) dt' lb trees nf n = Ret w'.
Hypothesis Hp : save_inline w' = Ret p.

Lemma api_inline_forest : w_forest w' = w_forest w /\ w_leaf_bits w' = 0 /\ w_n_classes w' = n.
Proof.
  apply wrapper_init_Ret in Hw as (E & _). apply wrapper_init_Ret in Hw' as (E' & H1 & _ & H2 & _).
  rewrite E in E'. injection E' as E'. rewrite H1, H2, (hard_bits lb Hlb). auto.
Qed.

Theorem api_agree features out : zlen features = nf -> n <= zlen out ->
  exists o, eml_trees_predict_proba m features out n = Ret (EmlOk, o) /\
    inline_predict_proba_int16 p features out n = Ret (0, o) /\
    (n <= 30 -> exists c, eml_trees_predict m features nf = Ret c /\ inline_predict_int16 p features = Ret c).
Proof.
  intros Hfe Ho. destruct (tree_class_total nf n trees Hfit Hn features) as [cs HCS].
  destruct (api_proba features cs out Hfe Ho HCS) as (o & Eo & _).
  destruct api_forest as (nodes & roots & leaves & E & HFF & HC' & B1 & B2 & B3 & B4 & B5).
  destruct api_inline_forest as (I1 & I2 & I3).
  pose proof Hm as Hm'. pose proof Hp as Hp'.
  pose proof HFF as (V & R & L & P & _). unfold save_loadable in Hm'. rewrite E, B1, B2, B3 in Hm'.
  unfold save_inline in Hp'. rewrite I1, E, I2, I3 in Hp'.
  pose proof (trees_pos _ _ _ Hfit).
  pose proof (tree_class_leaf nf n trees Hfit features nodes roots leaves cs HFF HCS) as TC.
  exists o. split; [auto|]. split.
  - rewrite (inline_proba_eq nf nodes roots leaves V HC' R ltac:(lia) features ltac:(lia) n P Hn m Hm' ltac:(lia)
        ltac:(lia) p Hp' out cs n eq_refl TC). rewrite Eo. reflexivity.
  - intros H30. destruct (api_predict features cs H30 Hfe HCS) as (c & Ec & Mc).
    destruct (inline_predict_majority nf nodes roots leaves V HC' R ltac:(lia) features ltac:(lia) n P Hn ltac:(lia)
       p Hp' cs TC) as (c' & Ec' & Mc').
    exists c. split; auto. now rewrite Ec', (majority_unique _ _ _ _ Mc' Mc).
Qed.
End HardApi.

(** ** Soft voting *)
Section SoftApi.
Variables (nf n bits : Z) (trees : sk_forest) (dt dt' : option dtype_arg) (w w' : wrapper) (m : eml_trees)
  (p : inline_prog Z).
Hypothesis Hfit : fitted nf (proba_row n) trees.
Hypothesis Hn : 1 <= n <= 127.
Hypothesis Hbits : 2 <= bits <= 8.
Hypothesis Hnt : zlen trees < 2 ^ 24.

Definition soft_leaf (l : pyleaf) : Prop :=
  exists bs, l = LProba bs /\ zlen bs = n /\ Forall (fun b => 0 <= b <= 255) bs.
Lemma soft_mk row : proba_row n row -> exists l, mk_pyleaf LeafProbabilities bits row = Ret l /\ soft_leaf l.
Proof.
  intros [Hl Hr]. assert (Hne : row <> []) by (intros ->; unfold zlen in Hl; simpl in Hl; lia).
  unfold mk_pyleaf. rewrite (quantize_ok row bits Hbits Hne Hr). cbn [bind].
  eexists; split; [reflexivity|]. eexists; split; [reflexivity|]. split; [now rewrite zlen_map|].
  apply Forall_map. eapply Forall_impl; [|exact Hr]. intros x [Fx Bx]. now apply byte_of_spec.
Qed.
Lemma soft_leaf_eqb l : soft_leaf l -> pyleaf_eqb l l = true.
Proof. intros (bs & -> & _). simpl. now apply list_eqb_eq. Qed.

Lemma soft_bits : choose_leaf_bits true (Some bits) = bits /\ choose_leaf true bits = LeafProbabilities.
Proof.
  unfold choose_leaf_bits, choose_leaf. destruct (Z.eqb_spec bits 1); [lia|]. split; auto.
  cbn [negb]. destruct (Z.ltb_spec 0 bits); [|lia]. destruct (Z.leb_spec bits 8); [|lia]. reflexivity.
Qed.

Lemma soft_forest : exists nodes roots leaves,
  convert_forest (PyInt 0) (mk_pyleaf LeafProbabilities bits) pyleaf_eqb trees = Ret (nodes, roots, leaves) /\
  forest_facts nf trees soft_leaf LeafProbabilities bits nodes roots leaves /\
  (small_model nf trees -> fits_c nodes).
Proof. apply convert_facts with (P := proba_row n); auto. { intros; now apply soft_mk. } apply soft_leaf_eqb. Qed.

Lemma soft_init method dtype : In dtype [None; Some DInt16] -> method <> Some MUnknown ->
  nf <= (match method with Some MLoadable => 127 | _ => 10000 end) ->
  exists w, wrapper_init true method dtype (Some bits) trees nf n = Ret w /\
    (small_model nf trees -> fits_c (forest_nodes (w_forest w))).
Proof.
  intros Hd Hm Hf. destruct soft_forest as (nodes & roots & leaves & E & _ & HS).
  destruct soft_bits as [S1 S2].
  unfold wrapper_init. rewrite S1, S2, E. cbn [bind].
  destruct method as [[]|]; try congruence; destruct Hd as [<-|[<-|[]]]; cbn [bind];
  (match goal with |- context [?a <? ?b] => destruct (Z.ltb_spec a b); [lia|] end);
  (eexists; split; [reflexivity|]; auto).
Qed.

Hypothesis Hw : wrapper_init true (Some MLoadable) dt (Some bits) trees nf n = Ret w.
Hypothesis Hw' : wrapper_init true (Some MInline) dt' (Some bits) trees nf n = Ret w'.
Hypothesis HF : fits_c (forest_nodes (w_forest w)).
Hypothesis Hm : save_loadable w = Ret m.
Hypothesis Hp : save_inline w' = Ret p.

Lemma soft_api_forest : exists nodes roots leaves, w_forest w = (nodes, roots, leaves) /\
  forest_facts nf trees soft_leaf LeafProbabilities bits nodes roots leaves /\ fits_c nodes /\
  1 <= nf <= 127 /\ generate_c_loadable (nodes, roots, leaves) nf n bits = Ret m /\
  generate_c_inlined_int16 (nodes, roots, leaves) n bits = Ret p.
Proof.
  apply wrapper_init_Ret in Hw as (E & H1 & H2 & H3 & _ & H4). destruct soft_bits as [S1 S2].
  apply wrapper_init_Ret in Hw' as (Ei & I1 & _ & I3 & _).
  rewrite S1, S2 in *. rewrite E in Ei. injection Ei as Ei.
  destruct soft_forest as (nodes & roots & leaves & E' & HFF & _).
  rewrite E in E'. injection E' as E'. exists nodes, roots, leaves. rewrite E' in HF.
  pose proof (ft_features _ _ _ Hfit). pose proof Hm as Hm'. pose proof Hp as Hp'.
  unfold save_loadable in Hm'. unfold save_inline in Hp'.
  rewrite E', H1, H2, H3 in Hm'. rewrite <- Ei, E', I1, I3 in Hp'. auto 10.
Qed.

Theorem soft_api_agree features out : zlen features = nf -> n <= zlen out ->
  exists o, eml_trees_predict_proba m features out n = Ret (EmlOk, o) /\
            inline_predict_proba_int16 p features out n = Ret (0, o).
Proof.
  intros Hfe Ho. destruct soft_api_forest as (nodes & roots & leaves & E & HFF & HC & B & Gm & Gp).
  destruct HFF as (V & R & L & P & _). pose proof (trees_pos _ _ _ Hfit).
  destruct (soft_proba_agree nf nodes roots leaves V HC R ltac:(lia) n P Hn bits Hbits features ltac:(lia) ltac:(lia)
     m Gm p Gp out Ho) as (o & H1 & H2 & _). eauto.
Qed.

Theorem soft_api_predict features : n <= 30 -> zlen features = nf ->
  exists i j o, inline_predict_int16 p features = Ret i /\ eml_trees_predict m features nf = Ret j /\
    eml_trees_predict_proba m features (repeat fzero (Z.to_nat 30)) n = Ret (EmlOk, o) /\
    (i = j \/
     (0 <= j < i /\ i < n /\ exists yi yj, zget o i = Ret yi /\ zget o j = Ret yj /\
        is_finite yi = true /\ B2R yi = B2R yj)) /\
    ((exists kp, 0 <= kp /\ zlen trees = 2 ^ kp) -> i = j).
Proof.
  intros H30 Hfe. destruct soft_api_forest as (nodes & roots & leaves & E & HFF & HC & B & Gm & Gp).
  destruct HFF as (V & R & L & P & _). pose proof (trees_pos _ _ _ Hfit). rewrite <- L.
  exact (soft_predict_relation nf nodes roots leaves V HC R ltac:(lia) n P Hn bits Hbits features ltac:(lia) ltac:(lia)
     m Gm p Gp H30).
Qed.
End SoftApi.
