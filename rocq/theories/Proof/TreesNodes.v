(** Thresholds of a converted forest come from the trees; small models fit the C tables. *)
From Coq Require Import ZArith List Bool Lia.
From Verif.Base Require Import Res CInt ListX.
From Verif.Model Require Import TreesConvert TreesC TreesWrapper.
From Verif.Spec Require Import TreesSpec TreesCSpec ClassifierSpec.
From Verif.Proof Require Import TreesFlatten TreesForest TreesLeaves.
Import ListNotations.
Open Scope Z_scope.
Open Scope res_scope.

Section Nodes.
Context {T V L : Type} (t_zero : T) (mk_leaf : V -> res L) (leaf_eqb : L -> L -> bool).
Variable Q : T -> Prop.
Definition node_source (t : sktree T V) : Prop :=
  Forall Q (sk_threshold t) /\ (zlen (zip_tree t) = 1 -> Q t_zero).
Notation PN := (Forall (fun n : dnode T => Q (d_value n))).

Lemma zip_threshold (t : sktree T V) a b c th : In (a, b, c, th) (zip_tree t) -> In th (sk_threshold t).
Proof.
  unfold zip_tree. intros H. apply in_map_iff in H as [[q v] [E H]]. simpl in E; subst q.
  apply in_combine_l in H. apply in_combine_r in H. auto.
Qed.

Lemma flatten_tree_nodes t dn ln : node_source t ->
  flatten_tree t_zero mk_leaf t = Ret (dn, ln) -> PN dn.
Proof.
  intros HS H. unfold flatten_tree in H. invbind H.
  destruct a1 as [[dn1 ln1] m1]. invbind H. injection H as -> ->.
  assert (HP : PN dn1).
  { cut (PN (fst (fst (dn1, ln, m1)))); [auto|].
    eapply (foldM_pres _ (fun st => PN (fst (fst st)))); [| |exact E1]; simpl; auto.
    intros [[d l] m] [no [[[lft rgt] fe] th]] s' Hin HF Hs. cbn [fst snd] in HF.
    apply in_combine_r in Hin. apply zip_threshold in Hin.
    destruct HS as [HS HS1]. rewrite Forall_forall in HS.
    unfold flatten_step in Hs. clear E E0 E3. destruct (Z.eqb_spec (zlen (zip_tree t)) 1) as [Hz|Hz].
    - invbind Hs. match goal with H : add_leaf _ _ _ _ = Ret ?x |- _ => destruct x as [li ln'] end. inv Hs. simpl.
      apply Forall_app; auto.
    - destruct (_ && _); [inv Hs; auto|]. invbind Hs. destruct a1 as [l1 ln1'].
      invbind Hs. destruct a1 as [l2 ln2']. inv Hs. simpl. apply Forall_app; split; auto. }
  match goal with H : mapM (fix_node m1) dn1 = Ret dn |- _ => apply mapM_Ret in H; rename H into HM end.
  clear -HM HP. induction HM; auto. inversion HP; subst. constructor; auto.
  unfold fix_node in H. invbind H. inv H. auto.
Qed.

Lemma flatten_forest_nodes trees nodes roots leaves : Forall node_source trees ->
  flatten_forest t_zero mk_leaf trees = Ret (nodes, roots, leaves) -> PN nodes.
Proof.
  intros HS H. rewrite Forall_forall in HS. unfold flatten_forest in H. invbind H.
  destruct a as [[[[fn rs] fl] no] lo]. invbind H. inv H.
  cut (PN (fst (fst (fst (fst (nodes, roots, leaves, no, lo)))))); [auto|].
  eapply (foldM_pres _ (fun st => PN (fst (fst (fst (fst st)))))); [| |exact E]; simpl; auto.
  intros [[[[f1 r1] l1] n1] o1] t s' Hin HF Hs. cbn [fst snd] in HF.
  unfold flatten_forest_step in Hs. invbind Hs. destruct a0 as [dn ln]. invbind Hs. inv Hs. simpl.
  apply Forall_app; split; auto.
  match goal with H : flatten_tree _ _ _ = _ |- _ => apply flatten_tree_nodes in H; [|auto]; rename H into HD end.
  apply Forall_map. eapply Forall_impl; [|exact HD]. auto.
Qed.

Lemma convert_forest_nodes trees nodes roots leaves : Forall node_source trees ->
  convert_forest t_zero mk_leaf leaf_eqb trees = Ret (nodes, roots, leaves) -> PN nodes.
Proof.
  intros HS H. unfold convert_forest in H. invbind H. destruct a as [[n1 r1] l1].
  apply flatten_forest_nodes in E; auto. apply remove_duplicate_leaves_inv in H as (un & rm & _ & E2 & _).
  inv E2. apply Forall_map. eapply Forall_impl; [|exact E]. auto.
Qed.

(** Conversion never produces more entries than the trees have. *)
Lemma convert_forest_size nf trees nodes roots leaves :
  1 <= nf -> Forall (wf_sktree nf) trees -> Forall (leaves_convertible mk_leaf) trees ->
  convert_forest t_zero mk_leaf leaf_eqb trees = Ret (nodes, roots, leaves) ->
  zlen nodes + zlen leaves <= fold_right Z.add 0 (map flat_size trees).
Proof.
  intros Hnf HW HC H. unfold convert_forest in H.
  destruct (flatten_forest_ok t_zero mk_leaf nf Hnf trees HW HC) as (n1 & r1 & l1 & E & _ & _ & _ & Hs & _).
  rewrite E in H. cbn [bind] in H. apply remove_duplicate_leaves_inv in H as (un & rm & Ef & E2 & _).
  inv E2. rewrite zlen_map. rewrite <- Hs.
  assert (G : forall ls s, zlen (fst (fold_left (dedup_step leaf_eqb) ls s)) <= zlen (fst s) + zlen ls).
  { clear. induction ls as [|[i x] ls IH]; intros s; [simpl; unfold zlen; simpl; lia|].
    rewrite zlen_cons. cbn [fold_left]. eapply Z.le_trans; [apply IH|].
    destruct s as [u r]. unfold dedup_step. destruct (find_array_index leaf_eqb u x); cbn [fst].
    - lia.
    - rewrite zlen_app. unfold zlen at 2; simpl length. lia. }
  specialize (G (enumerate l1) ([], [])). rewrite Ef in G. cbn [fst] in G.
  rewrite enumerate_zlen in G. unfold zlen at 2 in G. simpl length in G. lia.
Qed.
End Nodes.

(** Small models fit the C tables. *)
Theorem small_model_fits {L} (mk_leaf : list _ -> res L) leaf_eqb nf (trees : sk_forest) nodes roots leaves :
  1 <= nf -> Forall (wf_sktree nf) trees -> Forall (leaves_convertible mk_leaf) trees ->
  small_model nf trees ->
  valid_nodes nf (zlen leaves) nodes ->
  convert_forest (PyInt 0) mk_leaf leaf_eqb trees = Ret (nodes, roots, leaves) ->
  fits_c nodes.
Proof.
  intros Hnf HW HC (Hf & Hs & Ht) HV H.
  pose proof (convert_forest_size (PyInt 0) mk_leaf leaf_eqb nf trees nodes roots leaves Hnf HW HC H) as Hz.
  pose proof (zlen_nonneg leaves). pose proof (zlen_nonneg nodes).
  pose proof (convert_forest_nodes (PyInt 0) mk_leaf leaf_eqb (fun th => exists k, py_int th = Ret k /\ int16_ok k)) as HN.
  assert (Ht' : Forall (node_source (PyInt 0) (fun th => exists k, py_int th = Ret k /\ int16_ok k)) trees).
  { eapply Forall_impl; [|exact Ht]. intros t Hth. split; auto.
    intros _. exists 0; split; [reflexivity|unfold int16_ok; lia]. }
  specialize (HN trees nodes roots leaves Ht' H).
  rewrite Forall_forall in HN. split; [lia|].
  intros i n Hn. pose proof (zget_bound _ _ _ Hn). destruct (HV i n Hn) as (Hfe & [L1 L2] & [R1 R2]).
  split; [lia|]. split; [apply HN; eapply zget_In; eauto|]. unfold child_fits. lia.
Qed.
