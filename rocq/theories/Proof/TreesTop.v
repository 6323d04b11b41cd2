(** End-to-end: from the fitted scikit-learn forest to the answers of the generated programs. *)
From Coq Require Import ZArith List Bool Lia Reals Lra.
From Flocq Require Import Core BinarySingleNaN.
From Verif.Base Require Import Res CInt ListX Float Loops.
From Verif.Model Require Import Common TreesConvert TreesC TreesInline TreesWrapper.
From Verif.Spec Require Import TreesSpec TreesCSpec VoteSpec ClassifierSpec.
From Verif.Proof Require Import TreesFlatten TreesForest TreesLeaves TreesWalk Vote TreesEnd TreesHard
  Quantize TreesSoft TreesNodes.
Import ListNotations.
Open Scope Z_scope.
Open Scope res_scope.

(** numpy.argmax of a row of finite numbers is its first maximum. *)
Lemma np_argmax_from_spec rest : forall row best i,
  Forall (fun x => is_finite x = true) (row ++ rest) ->
  zlen row = i -> 0 <= best < i ->
  first_max i (row_val (row ++ rest)) best ->
  first_max (i + zlen rest) (row_val (row ++ rest))
    (np_argmax_from best (nth (Z.to_nat best) (row ++ rest) fzero) i rest).
Proof.
  induction rest as [|x rest IH]; intros row best i HF Hl Hb HM.
  - simpl. replace (i + zlen (A:=f64) []) with i by (unfold zlen; simpl; lia). auto.
  - simpl np_argmax_from. rewrite zlen_cons.
    assert (Ex : nth (Z.to_nat i) (row ++ x :: rest) fzero = x).
    { rewrite app_nth2 by (unfold zlen in Hl; lia).
      replace (Z.to_nat i - length row)%nat with 0%nat by (unfold zlen in Hl; lia). auto. }
    assert (Fb : is_finite (nth (Z.to_nat best) (row ++ x :: rest) fzero) = true).
    { rewrite Forall_forall in HF. apply HF. apply nth_In. rewrite app_length. simpl. unfold zlen in Hl. lia. }
    assert (Fx : is_finite x = true).
    { rewrite Forall_forall in HF. apply HF. apply in_elt. }
    assert (Vx : row_val (row ++ x :: rest) i = B2R x) by (unfold row_val; now rewrite Ex).
    assert (Eg : np_gt x (nth (Z.to_nat best) (row ++ x :: rest) fzero) =
                 fltb (nth (Z.to_nat best) (row ++ x :: rest) fzero) x).
    { unfold np_gt. destruct (nth (Z.to_nat best) (row ++ x :: rest) fzero); try discriminate;
        destruct x; try discriminate; reflexivity. }
    rewrite Eg. clear Eg.
    assert (Ea : row ++ x :: rest = (row ++ [x]) ++ rest) by now rewrite <- app_assoc.
    destruct HM as (_ & M1 & M2).
    set (v := row_val (row ++ x :: rest)) in *.
    destruct (fltb (nth (Z.to_nat best) (row ++ x :: rest) fzero) x) eqn:Ef.
    + apply fltb_iff in Ef; auto. fold (row_val (row ++ x :: rest) best) in Ef. fold v in Ef.
      specialize (IH (row ++ [x]) i (i + 1)). rewrite <- Ea in IH. rewrite Ex in IH. fold v in IH.
      replace (i + (1 + zlen rest)) with (i + 1 + zlen rest) by lia. apply IH; auto; try lia.
      { rewrite zlen_app. unfold zlen at 2; simpl; lia. }
      split; [lia|]. split.
      * intros j Hj. destruct (Z.eq_dec j i); [subst; lra|]. specialize (M1 j ltac:(lia)). lra.
      * intros j Hj. specialize (M1 j ltac:(lia)). lra.
    + assert (Hle : (B2R x <= v best)%R).
      { destruct (Rle_or_lt (B2R x) (v best)) as [?|H]; auto.
        assert (fltb (nth (Z.to_nat best) (row ++ x :: rest) fzero) x = true) by (apply fltb_iff; auto). congruence. }
      specialize (IH (row ++ [x]) best (i + 1)). rewrite <- Ea in IH. fold v in IH.
      replace (i + (1 + zlen rest)) with (i + 1 + zlen rest) by lia. apply IH; auto; try lia.
      { rewrite zlen_app. unfold zlen at 2; simpl; lia. }
      split; [lia|]. split.
      * intros j Hj. destruct (Z.eq_dec j i); [subst; lra|]. apply M1; lia.
      * intros j Hj. apply M2; lia.
Qed.

Lemma np_argmax_class row : row <> [] -> Forall (fun x => is_finite x = true) row ->
  exists c, np_argmax row = Ret c /\ row_class row c.
Proof.
  intros Hne HF. destruct row as [|x row]; [congruence|]. simpl. eexists; split; [reflexivity|].
  unfold row_class. rewrite zlen_cons.
  apply (np_argmax_from_spec row [x] 0 1); auto; try lia.
  split; [lia|]. split.
  - intros j Hj. replace j with 0 by lia. lra.
  - intros j Hj. lia.
Qed.

Lemma row_class_det row a b : row_class row a -> row_class row b -> a = b.
Proof.
  intros (A0 & A1 & A2) (B0 & B1 & B2).
  destruct (Z.lt_trichotomy a b) as [H|[H|H]]; auto.
  - specialize (B2 a ltac:(lia)). specialize (A1 b ltac:(lia)). lra.
  - specialize (A2 b ltac:(lia)). specialize (B1 a ltac:(lia)). lra.
Qed.

Lemma row_class_argmax row c : row <> [] -> Forall (fun x => is_finite x = true) row ->
  row_class row c -> np_argmax row = Ret c.
Proof.
  intros Hne HF Hc. destruct (np_argmax_class row Hne HF) as (c' & E & Hc').
  now rewrite E, (row_class_det _ _ _ Hc Hc').
Qed.

(** Fields of a wrapper. *)
Lemma wrapper_init_Ret classifier method dtype lb trees nf n w :
  wrapper_init classifier method dtype lb trees nf n = Ret w ->
  convert_forest (PyInt 0) (mk_pyleaf (choose_leaf classifier (choose_leaf_bits classifier lb))
     (choose_leaf_bits classifier lb)) pyleaf_eqb trees = Ret (w_forest w) /\
  w_leaf_bits w = choose_leaf_bits classifier lb /\ w_n_features w = nf /\
  w_n_classes w = (if classifier then n else 0) /\ w_classifier w = classifier /\
  nf <= (match method with Some MLoadable => 127 | _ => 10000 end).
Proof.
  unfold wrapper_init. intros H. invbind H.
  destruct (Z.ltb_spec (match match method with None => MInline | Some m => m end with
       MLoadable => 127 | _ => 10000 end) nf); [discriminate|].
  inv H. simpl. split; [auto|]. repeat (split; [reflexivity|]).
  destruct method as [[]|]; auto; lia.
Qed.

Section Common.
Variables (nf : Z) (P : list f64 -> Prop) (trees : sk_forest).
Hypothesis Hfit : fitted nf P trees.

Lemma rows_convertible kind bits : (forall row, P row -> exists l, mk_pyleaf kind bits row = Ret l) ->
  Forall (leaves_convertible (mk_pyleaf kind bits)) trees.
Proof.
  intros H. destruct Hfit as [_ _ _ HR]. eapply Forall_impl; [|exact HR]. intros t Ht.
  unfold leaves_convertible. eapply Forall_impl; [|exact Ht]. intros rows Hr.
  eapply Forall_impl; [|exact Hr]. auto.
Qed.

Lemma rows_source kind bits (PL : pyleaf -> Prop) :
  (forall row l, P row -> mk_pyleaf kind bits row = Ret l -> PL l) ->
  Forall (leaf_source (mk_pyleaf kind bits) PL) trees.
Proof.
  intros H. destruct Hfit as [_ _ _ HR]. eapply Forall_impl; [|exact HR]. intros t Ht row v l Hrow Hv.
  rewrite Forall_forall in Ht. specialize (Ht row Hrow). rewrite Forall_forall in Ht. eauto.
Qed.

Lemma reach_row t go row : In t trees -> sk_reaches t go 0 row -> P row.
Proof.
  intros Ht Hr. destruct Hfit as [_ _ _ HR]. rewrite Forall_forall in HR. specialize (HR t Ht).
  destruct (sk_reaches_value t go 0 row Hr) as (r & H1 & H2).
  rewrite Forall_forall in HR. specialize (HR r H1). rewrite Forall_forall in HR. auto.
Qed.

Lemma trees_pos : 1 <= zlen trees.
Proof. destruct Hfit as [Hne _ _ _]. destruct trees as [|t0 l0]; [congruence|]. rewrite zlen_cons. pose proof (zlen_nonneg l0). lia. Qed.

(** What is known about the converted forest. *)
Definition forest_facts (PL : pyleaf -> Prop) kind bits nodes roots leaves : Prop :=
  valid_nodes nf (zlen leaves) nodes /\
  Forall (fun r => 0 <= r < zlen nodes) roots /\ zlen roots = zlen trees /\
  Forall PL leaves /\
  Forall2 (represents (mk_pyleaf kind bits) (fun a b => pyleaf_eqb a b = true) nodes leaves) trees roots /\
  no_equal_entries pyleaf_eqb leaves /\ all_referenced nodes roots (zlen leaves).

Lemma convert_facts kind bits (PL : pyleaf -> Prop) :
  (forall row, P row -> exists l, mk_pyleaf kind bits row = Ret l /\ PL l) ->
  (forall l, PL l -> pyleaf_eqb l l = true) ->
  exists nodes roots leaves,
    convert_forest (PyInt 0) (mk_pyleaf kind bits) pyleaf_eqb trees = Ret (nodes, roots, leaves) /\
    forest_facts PL kind bits nodes roots leaves /\
    (small_model nf trees -> fits_c nodes).
Proof.
  intros Hmk Heq.
  assert (HC : Forall (leaves_convertible (mk_pyleaf kind bits)) trees).
  { apply rows_convertible. intros row Hr. destruct (Hmk row Hr) as (l & E & _). eauto. }
  assert (HS : Forall (leaf_source (mk_pyleaf kind bits) PL) trees).
  { apply rows_source. intros row l Hr E. destruct (Hmk row Hr) as (l' & E' & Hl'). congruence. }
  destruct (convert_pyleaf_ok kind bits nf trees PL) as (nodes & roots & leaves & E & HV & HA & HR & HN & HZ & HP);
    auto; try apply Hfit.
  exists nodes, roots, leaves. split; [exact E|]. split.
  - split; [auto|]. split; [|split; [|auto]].
    + clear -HR. induction HR; constructor; auto. apply H.
    + symmetry. eapply Forall2_zlen; eauto.
  - intros Hsm. pose proof (ft_features _ _ _ Hfit). pose proof (ft_trees _ _ _ Hfit).
    exact (small_model_fits _ _ nf trees nodes roots leaves ltac:(assumption) ltac:(assumption) HC Hsm HV E).
Qed.
End Common.

Lemma reaches_total nf (t : sktree pynum (list f64)) go : wf_sktree nf t -> exists v, sk_reaches t go 0 v.
Proof.
  intros HW. apply (sk_reaches_total (fun v : list f64 => Ret v) nf t HW).
  unfold leaves_convertible. apply Forall_forall. intros ? _. apply Forall_forall. eauto.
Qed.

(** ** Classifier, hard voting *)
Section HardTop.
Variables (nf n : Z) (trees : sk_forest).
Hypothesis Hfit : fitted nf (class_row n) trees.
Hypothesis Hn : 1 <= n <= 127.

Definition hard_leaf (l : pyleaf) : Prop := exists c, l = LClass c /\ 0 <= c < n.

Lemma hard_mk row bits : class_row n row -> exists l, mk_pyleaf LeafArgmax bits row = Ret l /\ hard_leaf l.
Proof.
  intros [Hl HF]. assert (Hne : row <> []) by (intros ->; unfold zlen in Hl; simpl in Hl; lia).
  destruct (np_argmax_class row Hne HF) as (c & E & _). simpl. rewrite E. cbn [bind].
  eexists; split; [reflexivity|]. exists c. split; auto. apply np_argmax_range in E. lia.
Qed.
Lemma hard_leaf_eqb l : hard_leaf l -> pyleaf_eqb l l = true.
Proof. intros (c & -> & _). simpl. apply Z.eqb_refl. Qed.

Variable lb : option Z.
Hypothesis Hlb : In lb [None; Some 0; Some 1].
Lemma hard_bits : choose_leaf_bits true lb = 0.
Proof. destruct Hlb as [<-|[<-|[<-|[]]]]; reflexivity. Qed.

Lemma hard_forest : exists nodes roots leaves,
  convert_forest (PyInt 0) (mk_pyleaf LeafArgmax 0) pyleaf_eqb trees = Ret (nodes, roots, leaves) /\
  forest_facts nf trees hard_leaf LeafArgmax 0 nodes roots leaves /\
  (small_model nf trees -> fits_c nodes).
Proof. apply convert_facts with (P := class_row n); auto. { intros; now apply hard_mk. } apply hard_leaf_eqb. Qed.

Lemma hard_init method dtype : In dtype [None; Some DInt16] -> method <> Some MUnknown ->
  nf <= (match method with Some MLoadable => 127 | _ => 10000 end) ->
  exists w, wrapper_init true method dtype lb trees nf n = Ret w /\
    (small_model nf trees -> fits_c (forest_nodes (w_forest w))).
Proof.
  intros Hd Hm Hf. destruct hard_forest as (nodes & roots & leaves & E & _ & HS).
  unfold wrapper_init. rewrite hard_bits. change (choose_leaf true 0) with LeafArgmax. rewrite E. cbn [bind].
  destruct method as [[]|]; try congruence; destruct Hd as [<-|[<-|[]]]; cbn [bind];
  (match goal with |- context [?a <? ?b] => destruct (Z.ltb_spec a b); [lia|] end);
  (eexists; split; [reflexivity|]; auto).
Qed.

Lemma tree_class_leaf features nodes roots leaves cs :
  forest_facts nf trees hard_leaf LeafArgmax 0 nodes roots leaves ->
  Forall2 (tree_class features) trees cs -> tree_classes nodes roots leaves features cs.
Proof.
  intros (_ & _ & _ & HP & HR & _) HC. unfold tree_classes.
  assert (Hin : forall t, In t trees -> forall row, sk_reaches t (go_lt features) 0 row -> class_row n row)
    by (intros; eapply reach_row; eauto).
  clear Hfit Hlb Hn. revert roots HR cs HC. induction trees as [|t ts IH]; intros roots HR cs HC; inversion HR as [|? ? ? ? H1 HR']; inversion HC as [|? ? ? ? H3 HC']; subst; constructor.
  - destruct H3 as (row & Hr & Hc). destruct H1 as [_ H1]. destruct (H1 _ _ Hr) as (lf & lf' & E1 & E2 & E3).
    destruct (Hin t (or_introl eq_refl) row Hr) as [_ HF].
    assert (Hne : row <> []). { intros ->. simpl in E1. discriminate. }
    simpl in E1. rewrite (row_class_argmax row _ Hne HF Hc) in E1. inv E1.
    destruct lf' as [c'| |]; simpl in E2; try discriminate. apply Z.eqb_eq in E2. subst. auto.
  - apply IH; auto. intros; eapply Hin; eauto. right; auto.
Qed.

(** Every tree votes for exactly one class, below n. *)
Lemma tree_class_total features : exists cs, Forall2 (tree_class features) trees cs.
Proof.
  apply Forall2_exists. intros t Ht. destruct Hfit as [_ _ HW _]. rewrite Forall_forall in HW.
  destruct (reaches_total nf t (go_lt features) (HW t Ht)) as [row Hr].
  destruct (reach_row nf (class_row n) trees Hfit t _ row Ht Hr) as [Hl HF].
  assert (Hne : row <> []) by (intros ->; unfold zlen in Hl; simpl in Hl; lia).
  destruct (np_argmax_class row Hne HF) as (c & E & Hc). exists c, row. auto.
Qed.
End HardTop.
