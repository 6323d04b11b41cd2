(** From sklearn trees to the converted forest with Python leaves. *)
From Coq Require Import ZArith List Bool Lia.
From Flocq Require Import Core BinarySingleNaN.
From Verif.Base Require Import Res CInt ListX Float Loops.
From Verif.Model Require Import Common TreesConvert TreesC TreesInline TreesWrapper.
From Verif.Spec Require Import TreesSpec TreesCSpec VoteSpec.
From Verif.Proof Require Import TreesFlatten TreesForest TreesLeaves TreesWalk Vote.
Import ListNotations.
Open Scope Z_scope.
Open Scope res_scope.

Lemma list_eqb_eq a b : list_eqb a b = true <-> a = b.
Proof.
  revert b; induction a as [|x a IH]; intros [|y b]; simpl; split; intros H; try discriminate; auto.
  - apply andb_true_iff in H as [H1 H2]. apply Z.eqb_eq in H1. apply IH in H2. congruence.
  - inv H. rewrite Z.eqb_refl. simpl. now apply IH.
Qed.

Definition eqb' (a b : pyleaf) : bool :=
  match a, b with
  | LValue x, LValue y => Beqb x y || (is_nan x && is_nan y)
  | _, _ => pyleaf_eqb a b
  end.

Lemma beqb_refl (x : f64) : is_nan x = false -> Beqb x x = true.
Proof.
  intros H. unfold Beqb, SpecFloat.SFeqb.
  destruct x as [s|s| |s m e Hb]; try discriminate; cbn; try reflexivity; destruct s; cbn; try reflexivity;
  rewrite Z.compare_refl, ?Pos.compare_cont_refl; cbn; auto; unfold Pos.compare; rewrite Pos.compare_cont_refl; auto.
Qed.
Lemma beqb_nan (x y : f64) : is_nan x = true -> Beqb x y = false /\ Beqb y x = false.
Proof.
  intros H. destruct x; try discriminate. split; auto. destruct y; auto; try destruct s; auto.
Qed.

Lemma eqb'_refl a : eqb' a a = true.
Proof.
  destruct a; simpl.
  - apply Z.eqb_refl.
  - now apply list_eqb_eq.
  - destruct (is_nan x) eqn:E; [|now rewrite beqb_refl]. apply orb_true_r.
Qed.

Lemma eqb'_ext a b : pyleaf_eqb a a = true -> pyleaf_eqb b b = true -> pyleaf_eqb a b = eqb' a b.
Proof.
  intros Ha Hb. destruct a, b; auto. simpl in *.
  destruct (is_nan x) eqn:E; [|simpl; now rewrite orb_false_r].
  destruct (beqb_nan x x E) as [Q _]. congruence.
Qed.

Lemma sk_reaches_value {T V} (t : sktree T V) go i v : sk_reaches t go i v ->
  exists row, In row (sk_value t) /\ In v row.
Proof.
  induction 1; auto. exists [v]. split; [eapply zget_In; eauto|left; auto].
Qed.

Lemma convert_pyleaf_ok kind bits nf (trees : sk_forest) (P : pyleaf -> Prop) :
  1 <= nf -> trees <> [] ->
  Forall (wf_sktree nf) trees -> Forall (leaves_convertible (mk_pyleaf kind bits)) trees ->
  Forall (leaf_source (mk_pyleaf kind bits) P) trees -> (forall l, P l -> pyleaf_eqb l l = true) ->
  exists nodes roots leaves,
    convert_forest (PyInt 0) (mk_pyleaf kind bits) pyleaf_eqb trees = Ret (nodes, roots, leaves) /\
    valid_nodes nf (zlen leaves) nodes /\
    all_referenced nodes roots (zlen leaves) /\
    Forall2 (represents (mk_pyleaf kind bits) (fun a b => pyleaf_eqb a b = true) nodes leaves) trees roots /\
    no_equal_entries pyleaf_eqb leaves /\
    zlen trees <= zlen nodes /\
    Forall P leaves.
Proof.
  intros Hnf Hne HW HC HS HP.
  destruct (convert_forest_ok (PyInt 0) (mk_pyleaf kind bits) eqb' nf Hnf eqb'_refl trees Hne HW HC)
    as (nodes & roots & leaves & E & Hv & Hr & HR & Hq & Hn).
  assert (Ex : convert_forest (PyInt 0) (mk_pyleaf kind bits) pyleaf_eqb trees = Ret (nodes, roots, leaves)).
  { rewrite <- E. apply (convert_forest_ext (PyInt 0) (mk_pyleaf kind bits) pyleaf_eqb eqb' P); auto.
    intros. apply eqb'_ext; auto. }
  assert (HPl : Forall P leaves) by (eapply convert_forest_leaves; eauto).
  exists nodes, roots, leaves.
  split; [auto|]. split; [auto|]. split; [auto|]. split; [|split; [|split; auto]].
  - rewrite Forall_forall in HS.
    assert (Hin : forall t r, In t trees ->
        represents (mk_pyleaf kind bits) (fun a b => eqb' a b = true) nodes leaves t r ->
        represents (mk_pyleaf kind bits) (fun a b => pyleaf_eqb a b = true) nodes leaves t r).
    { intros t r Ht [Hb H]. split; auto. intros go v Hgo.
      destruct (H go v Hgo) as (l & l' & H1 & H2 & H3). exists l, l'. split; auto. split; auto.
      destruct (sk_reaches_value t go 0 v Hgo) as (row & Hrow & Hv').
      assert (P l) by (eapply HS; eauto).
      assert (P l'). { destruct H3 as (k & _ & Hk). apply zget_In in Hk. rewrite Forall_forall in HPl. auto. }
      rewrite eqb'_ext; auto. }
    clear -HR Hin. induction HR; constructor.
    + apply Hin; auto. left; auto.
    + apply IHHR. intros; apply Hin; auto. right; auto.
  - intros i j a b Hij Ha Hb. specialize (Hq i j a b Hij Ha Hb).
    apply zget_In in Ha, Hb. rewrite Forall_forall in HPl. rewrite eqb'_ext; auto.
Qed.

(** numpy.argmax stays inside the row. *)
Lemma np_argmax_from_range l best bv i : 0 <= best < i -> 
  0 <= np_argmax_from best bv i l < i + zlen l.
Proof.
  revert best bv i; induction l as [|x l IH]; intros best bv i H; simpl.
  - unfold zlen; simpl; lia.
  - rewrite zlen_cons. destruct (np_gt x bv).
    + specialize (IH i x (i + 1) ltac:(lia)). lia.
    + specialize (IH best bv (i + 1) ltac:(lia)). lia.
Qed.
Lemma np_argmax_range l c : np_argmax l = Ret c -> 0 <= c < zlen l.
Proof.
  destruct l; simpl; intros H; inv H. pose proof (np_argmax_from_range l 0 b 1 ltac:(lia)).
  rewrite zlen_cons. lia.
Qed.
