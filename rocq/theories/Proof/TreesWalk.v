(** The C walk over the generated table (C05) and the inline tree functions follow the forest. *)
From Coq Require Import ZArith List Bool Lia.
From Verif.Base Require Import Res CInt ListX Loops.
From Verif.Model Require Import Common TreesConvert TreesC TreesInline.
From Verif.Spec Require Import TreesSpec TreesCSpec.
Import ListNotations.
Open Scope Z_scope.
Open Scope res_scope.

Lemma encode_child_ok n_nodes n_leaves i c :
  0 <= i -> valid_ref n_nodes n_leaves i c -> child_fits i c ->
  encode_child i c = Ret (if 0 <=? c then c - i else c) /\
  int16_ok (if 0 <=? c then c - i else c).
Proof.
  intros Hi [V1 V2] [F1 F2]. unfold encode_child, assert_valid_child, int16_ok.
  change (2 ^ 15) with 32768.
  destruct (Z.leb_spec 0 c).
  - assert (i < c < n_nodes) by auto. assert (c - i <= 32767) by auto.
    destruct (Z.leb_spec i c); [|lia]. cbn [py_assert bind].
    destruct (Z.leb_spec 0 (c - i)); [|lia]. cbn [py_assert bind].
    destruct (Z.leb_spec (- (32768)) (c - i)); [|lia]. cbn [py_assert bind].
    destruct (Z.leb_spec (c - i) 32768); [|lia]. cbn [py_assert bind]. split; auto; lia.
  - assert (-32768 <= c) by auto. cbn [bind].
    destruct (Z.leb_spec (- (32768)) c); [|lia]. cbn [py_assert bind].
    destruct (Z.leb_spec c 32768); [|lia]. cbn [py_assert bind]. split; auto; lia.
Qed.

Lemma enumerate_In {A} (l : list A) i a : In (i, a) (enumerate l) <-> zget l i = Ret a.
Proof.
  unfold enumerate. split.
  - intros H. apply In_nth_error in H as [k H]. apply nth_error_combine in H as [H1 H2].
    unfold zrange in H1. rewrite nth_error_map in H1.
    destruct (nth_error (seq 0 (Z.to_nat (zlen l))) k) eqn:E; [|discriminate].
    assert (k < length (seq 0 (Z.to_nat (zlen l))))%nat by (apply nth_error_Some; congruence).
    rewrite seq_length in H. apply nth_error_nth with (d := O) in E.
    rewrite seq_nth in E by auto. simpl in H1. inv H1. apply zget_Ret. split; [lia|].
    now rewrite Nat2Z.id.
  - intros H. pose proof (zget_bound _ _ _ H) as Hb. apply zget_Ret in H as [H0 H].
    apply nth_error_In with (Z.to_nat i). apply nth_error_combine. split; auto.
    unfold zrange. rewrite nth_error_map.
    rewrite nth_error_nth' with (d := O) by (rewrite seq_length; lia).
    rewrite seq_nth by lia. simpl. f_equal. lia.
Qed.

Lemma zget_enumerate {A} (l : list A) i a : zget l i = Ret a -> zget (enumerate l) i = Ret (i, a).
Proof.
  intros H. pose proof (zget_bound _ _ _ H) as Hb. apply zget_Ret in H as [H0 H].
  apply zget_Ret. split; auto. unfold enumerate. apply nth_error_combine. split; auto.
  unfold zrange. rewrite nth_error_map.
  rewrite nth_error_nth' with (d := O) by (rewrite seq_length; lia).
  rewrite seq_nth by lia. simpl. f_equal. lia.
Qed.

Section Walk.
Variables (nf nl : Z) (nodes : list (dnode pynum)).
Hypothesis HV : valid_nodes nf nl nodes.
Hypothesis HF : fits_c nodes.

(** Relation between a forest node and its C struct. *)
Definition c_of (i : Z) (n : dnode pynum) (c : cnode) : Prop :=
  cn_feature c = d_feature n /\ py_int (d_value n) = Ret (cn_value c) /\
  cn_left c = (if 0 <=? d_left n then d_left n - i else d_left n) /\
  cn_right c = (if 0 <=? d_right n then d_right n - i else d_right n).

Lemma make_node_ok i n : zget nodes i = Ret n -> exists c, make_node i n = Ret c /\ c_of i n c.
Proof.
  intros Hn. destruct HF as [_ HF']. destruct (HF' i n Hn) as (Hf & (k & Hk & Hk') & Fl & Fr).
  destruct (HV i n Hn) as (Hf' & Vl & Vr). pose proof (zget_bound _ _ _ Hn) as Hi.
  destruct (encode_child_ok _ _ i (d_left n) ltac:(lia) Vl Fl) as [El Rl].
  destruct (encode_child_ok _ _ i (d_right n) ltac:(lia) Vr Fr) as [Er Rr].
  unfold make_node. rewrite El, Er, Hk. cbn [bind].
  eexists; split; [reflexivity|]. unfold c_of; cbn [cn_feature cn_value cn_left cn_right].
  rewrite to_int8_id by (unfold int8_ok; lia). rewrite !to_int16_id by auto. auto.
Qed.

Lemma generate_c_nodes_ok : exists cn, generate_c_nodes nodes = Ret cn /\ zlen cn = zlen nodes /\
  forall i n, zget nodes i = Ret n -> exists c, zget cn i = Ret c /\ c_of i n c.
Proof.
  unfold generate_c_nodes.
  destruct (mapM_ok (fun '(i, n) => make_node i n) (enumerate nodes)) as [cn Hcn].
  { intros [i n] Hin. apply enumerate_In in Hin. destruct (make_node_ok i n Hin) as (c & Hc & _). eauto. }
  exists cn. split; [exact Hcn|]. apply mapM_Ret in Hcn. split.
  - rewrite <- (Forall2_zlen _ _ _ Hcn). unfold enumerate, zlen.
    rewrite combine_length, zrange_length. lia.
  - intros i n Hn. pose proof (zget_enumerate _ _ _ Hn) as He.
    destruct (Forall2_zget _ _ _ _ _ Hcn He) as (c & Hc & HR). cbn in HR.
    destruct (make_node_ok i n Hn) as (c' & Hc' & Hof). rewrite Hc' in HR. inv HR. eauto.
Qed.

Variable cn : list cnode.
Hypothesis Hcn : forall i n, zget nodes i = Ret n -> exists c, zget cn i = Ret c /\ c_of i n c.
Variable features : list Z.
Hypothesis Hfeat : nf <= zlen features.

Lemma walk_ok : forall fuel i,
  (zlen nodes - i <= Z.of_nat fuel) -> 0 <= i < zlen nodes ->
  exists c, predict_tree_loop (S fuel) cn features i = Ret c /\ -32768 <= c < 0 /\
    flat_leaf nodes (go_lt features) i (- c - 1) /\ - c - 1 < nl.
Proof.
  induction fuel as [|fuel IH]; intros i Hfu Hi; [lia|].
  destruct (zget_ok nodes i Hi) as [n Hn].
  destruct (Hcn i n Hn) as (c & Hc & C1 & C2 & C3 & C4).
  destruct HF as [Hsz HF']. destruct (HF' i n Hn) as (Hf & _ & [Fl1 Fl2] & [Fr1 Fr2]).
  destruct (HV i n Hn) as (Hf' & [Vl1 Vl2] & [Vr1 Vr2]).
  destruct (zget_ok features (cn_feature c)) as [x Hx]; [lia|].
  remember (S fuel) as fuel1.
  cbn [predict_tree_loop]. destruct (Z.leb_spec 0 i); [|lia]. rewrite Hc. cbn [bind].
  rewrite Hx. cbn [bind].
  assert (Hgo : go_lt features (d_feature n) (d_value n) = (x <? cn_value c)).
  { unfold go_lt. rewrite <- C1, Hx, C2. reflexivity. }
  set (child := if x <? cn_value c then cn_left c else cn_right c).
  set (tgt := if go_lt features (d_feature n) (d_value n) then d_left n else d_right n).
  assert (Ht : child = if 0 <=? tgt then tgt - i else tgt).
  { unfold child, tgt. rewrite Hgo, C3, C4. destruct (x <? cn_value c); auto. }
  assert (Vt : (0 <= tgt -> i < tgt < zlen nodes) /\ (tgt < 0 -> - tgt - 1 < nl)).
  { unfold tgt. destruct (go_lt _ _ _); split; auto. }
  assert (Ft : tgt < 0 -> -32768 <= tgt).
  { unfold tgt. destruct (go_lt _ _ _); auto. }
  assert (Hfl : forall k, flat_leaf nodes (go_lt features) tgt k ->
                     flat_leaf nodes (go_lt features) i k).
  { intros k Hk. econstructor 2; [exact Hn|exact Hk]. }
  destruct (Z.leb_spec 0 tgt) as [Ht0|Ht0].
  - destruct Vt as [Vt _]. specialize (Vt Ht0).
    destruct (Z.leb_spec 0 child); [|lia].
    rewrite chk_int32_ok by (unfold int32_ok; lia). cbn [bind].
    replace (i + child) with tgt by lia. subst fuel1.
    destruct (IH tgt) as (cc & E & B & L & Q); try lia. exists cc. auto.
  - destruct (Z.leb_spec 0 child); [lia|]. cbn [bind]. subst fuel1.
    cbn [predict_tree_loop]. destruct (Z.leb_spec 0 child); [lia|].
    exists child. rewrite Ht. split; [auto|]. split; [auto|]. split.
    + apply Hfl. constructor. auto.
    + apply Vt; auto.
Qed.
End Walk.

(** Putting it together for the struct. *)
Lemma predict_tree_ok nf nl nodes cn self features root :
  valid_nodes nf nl nodes -> fits_c nodes -> generate_c_nodes nodes = Ret cn ->
  et_nodes self = cn -> nf <= zlen features -> 0 <= root < zlen nodes ->
  exists k, eml_trees_predict_tree self root features = Ret k /\
    flat_leaf nodes (go_lt features) root k /\ 0 <= k < nl /\ k <= 32767.
Proof.
  intros HV HF Hcn Hself Hfeat Hroot.
  destruct (generate_c_nodes_ok nf nl nodes HV HF) as (cn' & E & Hl & Hof).
  rewrite Hcn in E; inv E.
  unfold eml_trees_predict_tree.
  destruct (walk_ok nf nl nodes HV HF _ Hof features Hfeat (length nodes) root) as (c & E & B & FL & Q).
  { unfold zlen in *. lia. } { auto. }
  assert (Hlen : length (et_nodes self) = length nodes) by (unfold zlen in Hl; lia).
  rewrite Hlen, E. cbn [bind]. exists (- c - 1).
  rewrite to_int16_id by (unfold int16_ok; lia). split; [auto|]. split; [auto|]. lia.
Qed.

(** ** Inline tree functions *)
Section InlineWalk.
Context {R : Type}.
Variables (nf nl : Z) (nodes : list (dnode pynum)) (leaf_const : Z -> res R).
Hypothesis HV : valid_nodes nf nl nodes.
Hypothesis HT : forall i n, zget nodes i = Ret n -> exists k, py_int (d_value n) = Ret k.
Hypothesis HL : forall k, 0 <= k < nl -> exists r, leaf_const k = Ret r.

Lemma c_node_ok : forall fuel c,
  (0 <= c -> zlen nodes - c < Z.of_nat fuel) -> (0 < Z.of_nat fuel) ->
  c < zlen nodes -> (c < 0 -> - c - 1 < nl) ->
  exists t, c_node py_int leaf_const fuel nodes c = Ret t /\
    forall features, nf <= zlen features ->
      exists k r, flat_leaf nodes (go_lt features) c k /\ 0 <= k < nl /\
        leaf_const k = Ret r /\ run_tree Z.ltb features t = Ret r.
Proof.
  induction fuel as [|fuel IH]; intros c Hfu Hpos Hc Hneg; [lia|].
  cbn [c_node]. destruct (Z.ltb_spec c 0) as [Hc0|Hc0].
  - destruct (HL (- c - 1)) as [r Hr]; [specialize (Hneg Hc0); lia|]. rewrite Hr. cbn [bind].
    exists (IReturn r). split; auto. intros features Hf. exists (- c - 1), r.
    split; [now constructor|]. split; [specialize (Hneg Hc0); lia|]. split; auto.
  - destruct (zget_ok nodes c) as [n Hn]; [lia|]. rewrite (pyget_zget _ _ _ Hn). cbn [bind].
    destruct (HT _ _ Hn) as [kv Hkv]. rewrite Hkv. cbn [bind].
    destruct (HV c n Hn) as (Hf' & [Vl1 Vl2] & [Vr1 Vr2]).
    destruct (IH (d_left n)) as (tl & El & Hl).
    { intros Q. specialize (Vl1 Q). lia. } { lia. } { destruct (Z_lt_ge_dec (d_left n) 0); [lia|]. apply Vl1; lia. } { auto. }
    destruct (IH (d_right n)) as (tr & Er & Hr).
    { intros Q. specialize (Vr1 Q). lia. } { lia. } { destruct (Z_lt_ge_dec (d_right n) 0); [lia|]. apply Vr1; lia. } { auto. }
    rewrite El, Er. cbn [bind]. eexists; split; [reflexivity|]. intros features Hfe.
    destruct (zget_ok features (d_feature n)) as [x Hx]; [lia|].
    assert (Hgo : go_lt features (d_feature n) (d_value n) = (x <? kv)).
    { unfold go_lt. rewrite Hx, Hkv. reflexivity. }
    cbn [run_tree]. rewrite Hx. cbn [bind]. destruct (x <? kv) eqn:Eb.
    + destruct (Hl features Hfe) as (k & r & H1 & H2 & H3 & H4). exists k, r.
      split; [econstructor 2; [exact Hn|]; rewrite Hgo; exact H1|]. auto.
    + destruct (Hr features Hfe) as (k & r & H1 & H2 & H3 & H4). exists k, r.
      split; [econstructor 2; [exact Hn|]; rewrite Hgo; exact H1|]. auto.
Qed.
End InlineWalk.
