(** Additional list lemmas. *)
From Coq Require Import ZArith List Lia Bool Permutation.
From Verif.Base Require Import Res.
Import ListNotations.
Open Scope Z_scope.

Lemma nth_error_combine {A B} (l : list A) (l' : list B) n a b :
  nth_error (combine l l') n = Some (a, b) <->
  nth_error l n = Some a /\ nth_error l' n = Some b.
Proof.
  revert l' n; induction l as [|x l IH]; intros [|y l'] [|n]; simpl;
    try (split; [discriminate|intros [? ?]; discriminate]).
  - split; [intros E; inv E; auto|intros [E1 E2]; inv E1; inv E2; auto].
  - apply IH.
Qed.

Lemma zget_app1 {A} (l1 l2 : list A) i a : zget l1 i = Ret a -> zget (l1 ++ l2) i = Ret a.
Proof.
  rewrite !zget_Ret. intros [H1 H2]. split; auto. rewrite nth_error_app1; auto.
  apply nth_error_Some. congruence.
Qed.

Lemma zget_app2 {A} (l1 l2 : list A) i a :
  zget l2 i = Ret a -> zget (l1 ++ l2) (zlen l1 + i) = Ret a.
Proof.
  rewrite !zget_Ret. unfold zlen. intros [H1 H2]. split; [lia|].
  rewrite nth_error_app2 by lia. replace (_ - _)%nat with (Z.to_nat i) by lia. auto.
Qed.

Lemma zget_app_inv {A} (l1 l2 : list A) i a :
  zget (l1 ++ l2) i = Ret a ->
  zget l1 i = Ret a \/ (zlen l1 <= i /\ zget l2 (i - zlen l1) = Ret a).
Proof.
  rewrite !zget_Ret. unfold zlen. intros [H1 H2].
  destruct (Nat.ltb_spec (Z.to_nat i) (length l1)).
  - rewrite nth_error_app1 in H2 by auto. auto.
  - right. rewrite nth_error_app2 in H2 by auto. split; [lia|]. split; [lia|].
    replace (Z.to_nat (i - Z.of_nat (length l1))) with (Z.to_nat i - length l1)%nat by lia. auto.
Qed.

Lemma zget_last {A} (l : list A) a : zget (l ++ [a]) (zlen l) = Ret a.
Proof.
  rewrite <- (Z.add_0_r (zlen l)). apply zget_app2. reflexivity.
Qed.

Lemma zget_In {A} (l : list A) i a : zget l i = Ret a -> In a l.
Proof. intros H. apply zget_Ret in H as [_ H]. eapply nth_error_In; eauto. Qed.

Lemma In_zget {A} (l : list A) a : In a l -> exists i, zget l i = Ret a.
Proof.
  intros H. apply In_nth_error in H as [n H]. exists (Z.of_nat n). apply zget_Ret.
  split; [lia|]. now rewrite Nat2Z.id.
Qed.

Lemma zget_map {A B} (f : A -> B) l i :
  zget (map f l) i = let* a := zget l i in Ret (f a).
Proof.
  unfold zget. destruct (i <? 0); auto. rewrite nth_error_map.
  destruct (nth_error l (Z.to_nat i)); auto.
Qed.

Lemma zget_map_Ret {A B} (f : A -> B) l i b :
  zget (map f l) i = Ret b <-> exists a, zget l i = Ret a /\ b = f a.
Proof.
  rewrite zget_map. split; intros H.
  - invbind H. inv H. eauto.
  - destruct H as (a & -> & ->). reflexivity.
Qed.

Lemma Forall2_zget {A B} (R : A -> B -> Prop) l l' i a :
  Forall2 R l l' -> zget l i = Ret a -> exists b, zget l' i = Ret b /\ R a b.
Proof.
  intros HF H. apply zget_Ret in H as [H0 H]. revert H.
  cut (forall n, nth_error l n = Some a -> exists b, nth_error l' n = Some b /\ R a b).
  { intros Hc H. destruct (Hc _ H) as (b & Hb & HR). exists b; split; auto.
    apply zget_Ret; auto. }
  induction HF; intros [|n]; simpl; try discriminate; intros E.
  - inv E; eauto.
  - eauto.
Qed.

Lemma Forall2_zlen {A B} (R : A -> B -> Prop) l l' : Forall2 R l l' -> zlen l = zlen l'.
Proof. unfold zlen. induction 1; simpl length; lia. Qed.

Lemma Forall2_flip {A B} (R : A -> B -> Prop) l l' :
  Forall2 R l l' -> Forall2 (fun b a => R a b) l' l.
Proof. induction 1; constructor; auto. Qed.

Lemma zget_ext {A} (l l' : list A) :
  zlen l = zlen l' -> (forall i a, zget l i = Ret a -> zget l' i = Ret a) -> l = l'.
Proof.
  unfold zlen. intros Hl H.
  revert l' Hl H. induction l as [|a l IH]; intros [|b l'] Hl H; simpl in *; try lia; auto.
  assert (E : zget (b :: l') 0 = Ret a) by (apply H; reflexivity). inv E.
  f_equal. apply IH; [lia|]. intros i x Hx.
  assert (Hb := zget_bound _ _ _ Hx).
  assert (E : zget (a :: l') (1 + i) = Ret x).
  { apply H. change (a :: l) with ([a] ++ l). replace 1 with (zlen [a]) by reflexivity.
    apply zget_app2; auto. }
  change (a :: l') with ([a] ++ l') in E. apply zget_app_inv in E as [E|[_ E]].
  - apply zget_bound in E. change (zlen [a]) with 1 in E. lia.
  - replace (1 + i - zlen [a]) with i in E by (change (zlen [a]) with 1; lia). auto.
Qed.

Lemma mapM_ok {A B} (f : A -> res B) l :
  (forall a, In a l -> exists b, f a = Ret b) -> exists l', mapM f l = Ret l'.
Proof.
  induction l as [|a l IH]; simpl; intros H; eauto.
  destruct (H a) as [b Hb]; auto. destruct IH as [l' Hl']; auto.
  rewrite Hb, Hl'. simpl. eauto.
Qed.

Lemma Permutation_filter {A} (f : A -> bool) l l' :
  Permutation l l' -> Permutation (filter f l) (filter f l').
Proof.
  induction 1; simpl; auto.
  - destruct (f x); auto.
  - destruct (f x), (f y); auto. constructor.
  - etransitivity; eauto.
Qed.

Lemma filter_negb_length {A} (f : A -> bool) l :
  (length (filter f l) + length (filter (fun x => negb (f x)) l) = length l)%nat.
Proof. induction l; simpl; auto. destruct (f a); simpl; lia. Qed.

Lemma forallb_false_ex {A} (f : A -> bool) l :
  forallb f l = false -> exists a, In a l /\ f a = false.
Proof.
  induction l; simpl; try discriminate. destruct (f a) eqn:E; simpl; intros.
  - destruct IHl as (b & ? & ?); eauto.
  - eauto.
Qed.
