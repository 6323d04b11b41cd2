(** Every leaf of a converted forest is the conversion of some node value of some tree. *)
From Coq Require Import ZArith List Bool Lia.
From Verif.Base Require Import Res ListX.
From Verif.Model Require Import TreesConvert.
Import ListNotations.
Open Scope Z_scope.
Open Scope res_scope.

Section Leaves.
Context {T V L : Type} (t_zero : T) (mk_leaf : V -> res L) (leaf_eqb : L -> L -> bool).
Variable P : L -> Prop.

Definition leaf_source (t : sktree T V) : Prop :=
  forall row v l, In row (sk_value t) -> In v row -> mk_leaf v = Ret l -> P l.

Lemma foldM_pres {A S} (f : S -> A -> res S) (Q : S -> Prop) (l : list A) s s' :
  (forall s a s', In a l -> Q s -> f s a = Ret s' -> Q s') -> Q s -> foldM f s l = Ret s' -> Q s'.
Proof.
  revert s; induction l as [|a l IH]; simpl; intros s Hf Hs H.
  - inv H; auto.
  - invbind H. eapply IH; [| |exact H].
    + intros; eapply Hf; eauto.
    + eapply Hf; [left; reflexivity| |exact E]; auto.
Qed.

Lemma pyget_In {A} (l : list A) i a : pyget l i = Ret a -> In a l.
Proof.
  unfold pyget. intros H. cbv zeta in H. destruct ((if i <? 0 then i + zlen l else i) <? 0); [discriminate|].
  destruct (nth_error _ _) eqn:E; [|discriminate]. inv H. eapply nth_error_In; eauto.
Qed.

Lemma add_leaf_pres t ln idx r : leaf_source t -> Forall P ln ->
  add_leaf mk_leaf t ln idx = Ret r -> Forall P (snd r).
Proof.
  intros HS HF H. unfold add_leaf in H. invbind H. inv H. simpl.
  apply Forall_app; split; auto. constructor; auto.
  eapply HS; [eapply pyget_In; eauto|eapply pyget_In; eauto|eauto].
Qed.

Lemma process_child_pres t ln idx r : leaf_source t -> Forall P ln ->
  process_child mk_leaf t ln idx = Ret r -> Forall P (snd r).
Proof.
  intros HS HF H. unfold process_child in H. invbind H.
  destruct a0; [eapply add_leaf_pres; eauto|inv H; auto].
Qed.

Lemma flatten_tree_leaves t dn ln : leaf_source t ->
  flatten_tree t_zero mk_leaf t = Ret (dn, ln) -> Forall P ln.
Proof.
  intros HS H. unfold flatten_tree in H. invbind H.
  destruct a1 as [[dn1 ln1] m1]. invbind H. inv H.
  cut (Forall P (snd (fst (dn1, ln, m1)))); [auto|].
  eapply (foldM_pres _ (fun st => Forall P (snd (fst st)))); [| |exact E1]; simpl; auto.
  intros [[d l] m] [no [[[lft rgt] fe] th]] s' _ HF Hs. cbn [fst snd] in HF.
  unfold flatten_step in Hs. clear E E0 E3. destruct (zlen (zip_tree t) =? 1).
  - invbind Hs. match goal with H : add_leaf _ _ _ _ = Ret ?x |- _ => destruct x as [li ln'] end. inv Hs. simpl.
    apply (add_leaf_pres t l 0 (li, ln')); auto.
  - destruct (_ && _); [inv Hs; auto|]. invbind Hs. destruct a1 as [l1 ln1'].
    invbind Hs. destruct a1 as [l2 ln2']. inv Hs. simpl.
    eapply (process_child_pres t ln1' _ (l2, ln2')); eauto.
    eapply (process_child_pres t l _ (l1, ln1')); eauto.
Qed.

Lemma flatten_forest_leaves trees nodes roots leaves : Forall leaf_source trees ->
  flatten_forest t_zero mk_leaf trees = Ret (nodes, roots, leaves) -> Forall P leaves.
Proof.
  intros HS H. rewrite Forall_forall in HS. unfold flatten_forest in H. invbind H.
  destruct a as [[[[fn rs] fl] no] lo]. invbind H. inv H.
  cut (Forall P (snd (fst (fst (nodes, roots, leaves, no, lo))))); [auto|].
  eapply (foldM_pres _ (fun st => Forall P (snd (fst (fst st))))); [| |exact E]; simpl; auto.
  intros [[[[f1 r1] l1] n1] o1] t s' Hin HF Hs. cbn [fst snd] in HF.
  unfold flatten_forest_step in Hs. invbind Hs. destruct a0 as [dn ln]. invbind Hs. inv Hs. simpl.
  apply Forall_app; split; auto. eapply flatten_tree_leaves; eauto.
Qed.

Lemma dedup_leaves ls s : Forall P (fst s) -> Forall P (map snd ls) ->
  Forall P (fst (fold_left (dedup_step leaf_eqb) ls s)).
Proof.
  revert s; induction ls as [|[i x] ls IH]; simpl; intros s Hs Hl; auto. inv Hl.
  apply IH; auto. destruct s as [u r]. unfold dedup_step. simpl in *.
  destruct (find_array_index leaf_eqb u x); simpl; auto. apply Forall_app; auto.
Qed.

Lemma map_snd_enumerate {A} (l : list A) : map snd (enumerate l) = l.
Proof.
  unfold enumerate.
  assert (H : forall (l' : list A) (z : list Z), length z = length l' -> map snd (combine z l') = l').
  { induction l'; intros [|? z]; simpl; intros; try lia; auto. f_equal; auto. }
  apply H. rewrite zrange_length. unfold zlen. lia.
Qed.

Lemma convert_forest_leaves trees nodes roots leaves : Forall leaf_source trees ->
  convert_forest t_zero mk_leaf leaf_eqb trees = Ret (nodes, roots, leaves) -> Forall P leaves.
Proof.
  intros HS H. unfold convert_forest in H. invbind H. destruct a as [[n1 r1] l1].
  apply flatten_forest_leaves in E; auto. unfold remove_duplicate_leaves in H.
  destruct (fold_left (dedup_step leaf_eqb) (enumerate l1) ([], [])) as [u rm] eqn:Ef.
  invbind H. inv H.
  replace leaves with (fst (fold_left (dedup_step leaf_eqb) (enumerate l1) ([], []))) by now rewrite Ef.
  apply dedup_leaves; simpl; auto. now rewrite map_snd_enumerate.
Qed.
End Leaves.

(** Two leaf comparisons that agree on the leaves of the forest give the same conversion. *)
Section EqbExt.
Context {T V L : Type} (t_zero : T) (mk_leaf : V -> res L) (eqb1 eqb2 : L -> L -> bool).
Variable P : L -> Prop.
Hypothesis Hext : forall a b, P a -> P b -> eqb1 a b = eqb2 a b.

Lemma find_ext u x : Forall P u -> P x -> forall i, find_array_index_from eqb1 i u x = find_array_index_from eqb2 i u x.
Proof.
  induction 1; intros Hx i; simpl; auto. rewrite Hext by auto. destruct (eqb2 x x0); auto.
Qed.

Lemma dedup_ext ls s : Forall P (fst s) -> Forall P (map snd ls) ->
  fold_left (dedup_step eqb1) ls s = fold_left (dedup_step eqb2) ls s.
Proof.
  revert s; induction ls as [|[i x] ls IH]; simpl; intros s Hs Hl; auto. inv Hl.
  assert (E : dedup_step eqb1 s (i, x) = dedup_step eqb2 s (i, x)).
  { destruct s as [u r]. unfold dedup_step, find_array_index. simpl in *. rewrite find_ext; auto. }
  rewrite E. apply IH; auto. destruct s as [u r]. unfold dedup_step. simpl in *.
  destruct (find_array_index eqb2 u x); simpl; auto. apply Forall_app; auto.
Qed.

Lemma convert_forest_ext trees : Forall (leaf_source mk_leaf P) trees ->
  convert_forest t_zero mk_leaf eqb1 trees = convert_forest t_zero mk_leaf eqb2 trees.
Proof.
  intros HS. unfold convert_forest. destruct (flatten_forest t_zero mk_leaf trees) as [[[n r] l]|] eqn:E; auto.
  simpl. apply (flatten_forest_leaves t_zero mk_leaf P) in E; auto. unfold remove_duplicate_leaves.
  rewrite dedup_ext; simpl; auto. now rewrite map_snd_enumerate.
Qed.
End EqbExt.
