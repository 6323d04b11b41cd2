(** The text exported for fitted forests. *)
From Coq Require Import ZArith List Bool Reals Lia.
From Flocq Require Import Core BinarySingleNaN.
From Verif.Base Require Import Res CInt ListX Float.
From Verif.Model Require Import Common Text TreesConvert TreesC TreesInline TreesWrapper TreesCsv.
From Verif.Spec Require Import TreesSpec TreesCSpec VoteSpec CsvSpec ClassifierSpec StrSpec TreeTextSpec.
From Verif.Proof Require Import TreesFlatten TreesForest TreesNodes TreesTop TreesApi TreesRegress TreesMisc TreesCsvApi TreeText.
Import ListNotations.
Open Scope Z_scope.

Definition text_leaf (l : pyleaf) : Prop := match l with LClass _ => True | LValue x => is_finite x = true | LProba _ => False end.
Lemma records_ok w rs : save_csv w = Ret rs ->
  (let '(nodes, roots, leaves) := w_forest w in Forall text_leaf leaves /\ Forall (fun d => text_threshold (d_value d)) nodes) -> Forall rec_ok rs.
Proof.
  unfold save_csv. destruct (w_forest w) as [[nodes roots] leaves]. intros H [HL HN]. invbind H. inv H. rename a into ns. apply mapM_Ret in E.
  repeat (constructor; [exact I|]). apply Forall_app. split; [|apply Forall_app; split].
  - apply Forall_map. eapply Forall_impl; [|exact HL]. intros [c|b|x]; cbn; auto.
  - apply Forall_map, Forall_forall. intros r _. exact I.
  - assert (HE : forall p, In p (enumerate nodes) -> text_threshold (d_value (snd p))).
    { intros [i d] I. apply enumerate_In in I. apply zget_In in I. exact (proj1 (Forall_forall _ _) HN d I). }
    clear - E HE. revert HE. induction E as [|[i d] r l l' S F IH]; intros HE; [constructor|]. constructor; [|apply IH; intros; apply HE; now right].
    specialize (HE (i, d) (or_introl eq_refl)). cbn [snd] in HE. destruct HE as (x & Hx & FX & BX).
    unfold serialize_node in S. invbind S. rewrite Hx in S. inv S. cbn [rec_ok]. now apply np_round6_close.
Qed.
Lemma save_csv_nonempty w rs : save_csv w = Ret rs -> rs <> [].
Proof. unfold save_csv. destruct (w_forest w) as [[nodes roots] leaves]. intros H. invbind H. inv H. discriminate. Qed.

Lemma csv_api_reg nf nc trees lb dt method w : fitted nf value_row trees -> In lb [None; Some 32] ->
  wrapper_init false method dt lb trees nf nc = Ret w -> fits_c (forest_nodes (w_forest w)) ->
  Forall (fun t => 2 <= sk_node_count t /\ Forall (fun th => exists x, th = PyFloat x) (sk_threshold t)) trees ->
  exists rs, save_csv w = Ret rs /\
    let '(nodes, roots, leaves) := w_forest w in
    csv_decode rs = (map round_node nodes, roots, leaves) /\
    exists tl, rs = RFeatures nf :: RClasses 0 :: RLeafBits 32 :: tl.
Proof.
  intros Hfit Hlb Hw HF HT.
  apply wrapper_init_Ret in Hw as (E & H1 & H2 & H3 & _ & H4). pose proof (val_bits lb Hlb) as Hb.
  rewrite Hb in *. change (choose_leaf false 32) with LeafValue in E.
  destruct (val_forest nf trees Hfit) as (nodes & roots & leaves & E' & HFF & _).
  rewrite E in E'. injection E' as E'. destruct HFF as (V & _).
  pose proof (save_csv_total w nf) as TT. rewrite E' in *.
  assert (HQ : Forall (fun d => exists x, d_value d = PyFloat x) nodes).
  { eapply (convert_forest_nodes (PyInt 0) _ _ (fun th => exists x, th = PyFloat x)); [|exact E].
    pose proof (ft_trees _ _ _ Hfit) as HW. rewrite Forall_forall in *. intros t Ht. specialize (HT t Ht). specialize (HW t Ht). revert HT HW.
    intros [A B] W. split; auto. intros Z1. exfalso.
    destruct W. unfold zip_tree, zlen in *. rewrite map_length, !combine_length in Z1. lia. }
  destruct TT as [rs Hrs]; auto.
  - intros i d Hd. destruct HF as [_ HF]. destruct (HF i d Hd) as (_ & _ & ? & ?). auto.
  - exists rs. split; auto. pose proof (save_csv_decode w rs Hrs) as D. rewrite E', H1, H2, H3 in D.
    destruct D as (D1 & _ & D2). auto.
Qed.

Lemma thresholds_of {L} (mk : list f64 -> res L) eqb nf P trees nodes roots leaves : fitted nf P trees ->
  convert_forest (PyInt 0) mk eqb trees = Ret (nodes, roots, leaves) ->
  Forall (fun t : sktree pynum (list f64) => 2 <= sk_node_count t /\ Forall text_threshold (sk_threshold t)) trees ->
  Forall (fun d => text_threshold (d_value d)) nodes.
Proof.
  intros Hfit E HT. eapply (convert_forest_nodes (PyInt 0) _ _ text_threshold); [|exact E].
  pose proof (ft_trees _ _ _ Hfit) as HW. rewrite Forall_forall in *. intros t Ht. specialize (HT t Ht). specialize (HW t Ht). revert HT HW.
  intros [A B] W. split; auto. intros Z1. exfalso.
  destruct W. unfold zip_tree, zlen in *. rewrite map_length, !combine_length in Z1. lia.
Qed.
Lemma weaker_thresholds trees : Forall (fun t : sktree pynum (list f64) => 2 <= sk_node_count t /\ Forall text_threshold (sk_threshold t)) trees ->
  Forall (fun t : sktree pynum (list f64) => 2 <= sk_node_count t /\ Forall (fun th => exists x, th = PyFloat x) (sk_threshold t)) trees.
Proof.
  apply Forall_impl. intros t [A B]. split; [exact A|]. eapply Forall_impl; [|exact B]. intros th (x & -> & _). eauto.
Qed.

Theorem csv_text_hard fs ar nf n trees lb dt method w : str_reads_back fs ->
  fitted nf (class_row n) trees -> 1 <= n <= 127 -> hard_args lb ->
  wrapper_init true method dt lb trees nf n = Ret w -> fits_c (forest_nodes (w_forest w)) ->
  Forall (fun t : sktree pynum (list f64) => 2 <= sk_node_count t /\ Forall text_threshold (sk_threshold t)) trees ->
  exists rs t es, save_csv_text fs ar w = Ret t /\ file_says t es /\ Forall2 entry_is es rs /\
    let '(nodes, roots, leaves) := w_forest w in
    csv_decode rs = (map round_node nodes, roots, leaves) /\
    exists tl, rs = RFeatures nf :: RClasses n :: RLeafBits 0 :: tl.
Proof.
  intros SR Hfit Hn Hlb Hw HF HT. destruct (csv_api nf n trees lb dt method w Hfit Hn Hlb Hw HF (weaker_thresholds _ HT)) as (rs & S & D).
  assert (RO : Forall rec_ok rs).
  { apply (records_ok w rs S). apply wrapper_init_Ret in Hw as (E & _). pose proof (hard_bits lb Hlb) as Hb. rewrite Hb in *. change (choose_leaf true 0) with LeafArgmax in E.
    destruct (hard_forest nf n trees Hfit Hn) as (nodes & roots & leaves & E' & HFF & _).
    assert (EQ : w_forest w = (nodes, roots, leaves)) by (rewrite E in E'; now injection E'). rewrite EQ. split.
    - destruct HFF as (_ & _ & _ & HLf & _). eapply Forall_impl; [|exact HLf]. intros l. unfold hard_leaf. intros (c & -> & _). exact I.
    - exact (thresholds_of _ _ _ _ _ _ _ _ Hfit E' HT). }
  destruct (file_ok fs ar rs SR (save_csv_nonempty w rs S) RO) as (es & F1 & F2).
  exists rs, (join_with [13; 10] (map (csv_line fs ar) rs)), es. unfold save_csv_text. rewrite S. cbn [bind]. repeat split; auto.
Qed.
Theorem csv_text_reg fs ar nf nc trees lb dt method w : str_reads_back fs ->
  fitted nf value_row trees -> In lb [None; Some 32] ->
  wrapper_init false method dt lb trees nf nc = Ret w -> fits_c (forest_nodes (w_forest w)) ->
  Forall (fun t : sktree pynum (list f64) => 2 <= sk_node_count t /\ Forall text_threshold (sk_threshold t)) trees ->
  exists rs t es, save_csv_text fs ar w = Ret t /\ file_says t es /\ Forall2 entry_is es rs /\
    let '(nodes, roots, leaves) := w_forest w in
    csv_decode rs = (map round_node nodes, roots, leaves) /\
    exists tl, rs = RFeatures nf :: RClasses 0 :: RLeafBits 32 :: tl.
Proof.
  intros SR Hfit Hlb Hw HF HT. destruct (csv_api_reg nf nc trees lb dt method w Hfit Hlb Hw HF (weaker_thresholds _ HT)) as (rs & S & D).
  assert (RO : Forall rec_ok rs).
  { apply (records_ok w rs S). apply wrapper_init_Ret in Hw as (E & _). pose proof (val_bits lb Hlb) as Hb. rewrite Hb in *. change (choose_leaf false 32) with LeafValue in E.
    destruct (val_forest nf trees Hfit) as (nodes & roots & leaves & E' & HFF & _).
    assert (EQ : w_forest w = (nodes, roots, leaves)) by (rewrite E in E'; now injection E'). rewrite EQ. split.
    - destruct HFF as (_ & _ & _ & HLf & _). eapply Forall_impl; [|exact HLf]. intros l (x & -> & FX). exact FX.
    - exact (thresholds_of _ _ _ _ _ _ _ _ Hfit E' HT). }
  destruct (file_ok fs ar rs SR (save_csv_nonempty w rs S) RO) as (es & F1 & F2).
  exists rs, (join_with [13; 10] (map (csv_line fs ar) rs)), es. unfold save_csv_text. rewrite S. cbn [bind]. repeat split; auto.
Qed.
