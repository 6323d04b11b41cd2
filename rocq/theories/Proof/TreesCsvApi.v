(** CSV export of a fitted hard-voting classifier. *)
From Coq Require Import ZArith List Bool Reals Lia.
From Flocq Require Import Core BinarySingleNaN.
From Verif.Base Require Import Res CInt ListX Float.
From Verif.Model Require Import Common TreesConvert TreesC TreesInline TreesWrapper.
From Verif.Spec Require Import TreesSpec TreesCSpec VoteSpec CsvSpec ClassifierSpec.
From Verif.Proof Require Import TreesFlatten TreesForest TreesNodes TreesTop TreesApi TreesMisc.
Import ListNotations.
Open Scope Z_scope.

Theorem csv_api nf n trees lb dt method w : fitted nf (class_row n) trees -> 1 <= n <= 127 -> hard_args lb ->
  wrapper_init true method dt lb trees nf n = Ret w -> fits_c (forest_nodes (w_forest w)) ->
  Forall (fun t => 2 <= sk_node_count t /\ Forall (fun th => exists x, th = PyFloat x) (sk_threshold t)) trees ->
  exists rs, save_csv w = Ret rs /\
    let '(nodes, roots, leaves) := w_forest w in
    csv_decode rs = (map round_node nodes, roots, leaves) /\
    exists tl, rs = RFeatures nf :: RClasses n :: RLeafBits 0 :: tl.
Proof.
  intros Hfit Hn Hlb Hw HF HT.
  apply wrapper_init_Ret in Hw as (E & H1 & H2 & H3 & _ & H4). pose proof (hard_bits lb Hlb) as Hb.
  rewrite Hb in *. change (choose_leaf true 0) with LeafArgmax in E.
  destruct (hard_forest nf n trees Hfit Hn) as (nodes & roots & leaves & E' & HFF & _).
  rewrite E in E'. injection E' as E'. destruct HFF as (V & _).
  pose proof (save_csv_total w nf) as TT. rewrite E' in *.
  assert (HQ : Forall (fun d => exists x, d_value d = PyFloat x) nodes).
  { eapply (convert_forest_nodes (PyInt 0) _ _ (fun th => exists x, th = PyFloat x)); [|exact E].
    pose proof (ft_trees _ _ _ Hfit) as HW. rewrite Forall_forall in *. intros t Ht. specialize (HT t Ht). specialize (HW t Ht). revert HT HW.
    intros [A B] W. split; auto. intros Z1. exfalso.
    destruct W. unfold zip_tree, zlen in *. rewrite map_length, !combine_length in Z1. lia. }
  destruct TT as [rs Hrs]; auto.
  - intros i d Hd. destruct HF as [_ HF]. destruct (HF i d Hd) as (_ & _ & ? & ?). auto.
  - exists rs. split; auto. pose proof (save_csv_decode w rs Hrs) as D. rewrite E', H1, H2, H3 in D.
    destruct D as (D1 & _ & D2). auto.
Qed.
