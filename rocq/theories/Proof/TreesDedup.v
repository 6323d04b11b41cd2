(** remove_duplicate_leaves, in terms of its result only. *)
From Coq Require Import ZArith List Bool Lia.
From Verif.Base Require Import Res ListX.
From Verif.Model Require Import TreesConvert.
From Verif.Spec Require Import TreesSpec.
From Verif.Proof Require Import TreesFlatten TreesForest.
Import ListNotations.
Open Scope Z_scope.

Section Dedup2.
Context {T L : Type} (leaf_eqb : L -> L -> bool) (nf : Z).
Hypothesis eqb_refl : forall l, leaf_eqb l l = true.

Theorem dedup_result (nodes : list (dnode T)) (roots : list Z) (leaves : list L) :
  1 <= zlen nodes -> valid_nodes nf (zlen leaves) nodes -> all_referenced nodes roots (zlen leaves) ->
  exists nodes' leaves',
    remove_duplicate_leaves leaf_eqb (nodes, roots, leaves) = Ret (nodes', roots, leaves') /\
    no_equal_entries leaf_eqb leaves' /\
    (forall u, In u leaves' -> In u leaves) /\
    (forall l, In l leaves -> exists u, In u leaves' /\ leaf_eqb l u = true) /\
    zlen leaves' <= zlen leaves /\
    Forall2 (fun n n' => d_feature n' = d_feature n /\ d_value n' = d_value n /\
               same_child leaf_eqb leaves leaves' (d_left n) (d_left n') /\
               same_child leaf_eqb leaves leaves' (d_right n) (d_right n')) nodes nodes' /\
    remove_duplicate_leaves leaf_eqb (nodes', roots, leaves') = Ret (nodes', roots, leaves').
Proof.
  intros Hn Hv Hr.
  destruct (remove_duplicate_leaves_ok leaf_eqb nf eqb_refl nodes roots leaves Hn Hv Hr)
    as (un & rmp & E & Ef & Hv' & Hr').
  exists (map (remap_node rmp) nodes), un. split; [auto|].
  pose proof (dedup_DInv leaf_eqb eqb_refl leaves un rmp Ef) as D.
  split; [exact (di_nodup _ _ _ D)|]. split; [|split; [|split; [|split]]].
  - intros u Hu. destruct (di_incl _ _ _ D u Hu) as [k Hk]. apply enumerate_In in Hk. eapply zget_In; eauto.
  - intros l Hl. apply In_zget in Hl as [k Hk]. apply enumerate_In in Hk.
    destruct (di_fwd _ _ _ D _ _ Hk) as (new & u & _ & H2 & H3). exists u. split; auto. eapply zget_In; eauto.
  - pose proof (di_len _ _ _ D) as H. rewrite enumerate_zlen in H. exact H.
  - assert (S : forall c, (c < 0 -> - c - 1 < zlen leaves) ->
        same_child leaf_eqb leaves un c (dict_get_default rmp c c)).
    { intros c Hc. split; intros Hs.
      - unfold dict_get_default. destruct (dict_find rmp c) eqn:E1; auto.
        destruct (di_keys _ _ _ D _ _ E1) as (k & l & new & H1 & H2 & _).
        apply enumerate_In in H2. apply zget_bound in H2. lia.
      - destruct (zget_ok leaves (- c - 1)) as [l Hl]; [lia|].
        pose proof Hl as Hl'. apply enumerate_In in Hl'.
        destruct (di_fwd _ _ _ D _ _ Hl') as (new & u & H1 & H2 & H3).
        replace (- (- c - 1) - 1) with c in H1 by lia. cbn [snd fst] in H1, H2.
        unfold dict_get_default. rewrite H1. pose proof (zget_bound _ _ _ H2). split; [lia|].
        exists l, u. replace (- (- new - 1) - 1) with new by lia. auto. }
    assert (F : Forall (fun n => (d_left n < 0 -> - d_left n - 1 < zlen leaves) /\
                                 (d_right n < 0 -> - d_right n - 1 < zlen leaves)) nodes).
    { apply Forall_forall. intros n Hin. apply In_zget in Hin as [i Hi].
      destruct (Hv i n Hi) as (_ & [_ A] & [_ B]). auto. }
    clear - F S. induction F as [|n ns [A B] F IH]; simpl; constructor; auto.
    simpl. auto.
  - pose proof (remove_duplicate_leaves_ok leaf_eqb nf eqb_refl (map (remap_node rmp) nodes) roots un
                  ltac:(rewrite zlen_map; lia) Hv' Hr') as (un2 & rmp2 & E2 & Ef2 & _).
    destruct (dedup_fixpoint leaf_eqb un (di_nodup _ _ _ D)) as (r3 & E3 & Hid).
    rewrite E3 in Ef2. injection Ef2 as <- <-. rewrite E2. f_equal. f_equal. f_equal.
    rewrite <- (map_id (map (remap_node rmp) nodes)) at 2. apply map_ext. intros n. now apply remap_node_id.
Qed.
End Dedup2.
