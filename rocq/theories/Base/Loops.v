(** Lemmas about array-updating loops. *)
From Coq Require Import ZArith List Lia Bool.
From Verif.Base Require Import Res ListX.
Import ListNotations.
Open Scope Z_scope.
Open Scope res_scope.

Lemma zget_list_set {A} (l : list A) i j v : 0 <= i < zlen l ->
  zget (list_set l (Z.to_nat i) v) j = if i =? j then Ret v else zget l j.
Proof.
  intros Hi. unfold zlen in Hi. unfold zget. destruct (Z.ltb_spec j 0).
  - destruct (Z.eqb_spec i j); [lia|auto].
  - destruct (Z.eqb_spec i j).
    + subst. rewrite nth_error_list_set_eq by lia. auto.
    + rewrite nth_error_list_set_ne by lia. auto.
Qed.

Lemma zget_repeat {A} (a : A) n i : 0 <= i < Z.of_nat n -> zget (repeat a n) i = Ret a.
Proof.
  intros H. apply zget_Ret. split; [lia|]. rewrite nth_error_nth' with (d := a) by (rewrite repeat_length; lia).
  now rewrite nth_repeat.
Qed.

Lemma zlen_repeat {A} (a : A) n : zlen (repeat a n) = Z.of_nat n.
Proof. unfold zlen. now rewrite repeat_length. Qed.

(** Two arrays with the same length and the same elements are equal. *)
Lemma zget_eq {A} (l l' : list A) :
  zlen l = zlen l' -> (forall i, 0 <= i < zlen l -> zget l i = zget l' i) -> l = l'.
Proof.
  intros Hl H. apply zget_ext; auto. intros i a Hi. rewrite <- H; auto. eapply zget_bound; eauto.
Qed.

(** for (i=0;i<n;i++) out[i] = g(i, out[i]) *)
Lemma foldM_update {A} (g : Z -> A -> A) (out : list A) n : 0 <= n <= zlen out ->
  exists out', foldM (fun o i => let* x := zget o i in zset o i (g i x)) out (zrange n) = Ret out' /\
    zlen out' = zlen out /\
    (forall i x, 0 <= i < n -> zget out i = Ret x -> zget out' i = Ret (g i x)) /\
    (forall i, n <= i -> zget out' i = zget out i).
Proof.
  intros Hn.
  destruct (foldM_range_inv (fun o i => let* x := zget o i in zset o i (g i x))
    (fun k o => zlen o = zlen out /\
      (forall i x, 0 <= i < k -> zget out i = Ret x -> zget o i = Ret (g i x)) /\
      (forall i, k <= i -> zget o i = zget out i)) n out) as (o' & E & H1 & H2 & H3); try lia.
  - split; [auto|]. split; [intros; lia|auto].
  - intros i o Hi (H1 & H2 & H3).
    destruct (zget_ok out i ltac:(lia)) as [x Hx].
    exists (list_set o (Z.to_nat i) (g i x)). split; [|split; [|split]].
    + rewrite H3, Hx by lia. simpl. apply zset_ok. lia.
    + now rewrite zlen_list_set.
    + intros j y Hj Hy. rewrite zget_list_set by lia. destruct (Z.eqb_spec i j).
      * subst. congruence.
      * apply H2; auto; lia.
    + intros j Hj. rewrite zget_list_set by lia. destruct (Z.eqb_spec i j); [lia|]. apply H3; lia.
  - exists o'. auto.
Qed.

(** for (i=0;i<n;i++) out[i] = g(i) *)
Lemma foldM_fill {A} (g : Z -> A) (out : list A) n : 0 <= n <= zlen out ->
  exists out', foldM (fun o i => zset o i (g i)) out (zrange n) = Ret out' /\
    zlen out' = zlen out /\
    (forall i, 0 <= i < n -> zget out' i = Ret (g i)) /\
    (forall i, n <= i -> zget out' i = zget out i).
Proof.
  intros Hn.
  destruct (foldM_range_inv (fun o i => zset o i (g i))
    (fun k o => zlen o = zlen out /\
      (forall i, 0 <= i < k -> zget o i = Ret (g i)) /\
      (forall i, k <= i -> zget o i = zget out i)) n out) as (o' & E & H1 & H2 & H3); try lia.
  - split; [auto|]. split; [intros; lia|auto].
  - intros i o Hi (H1 & H2 & H3).
    exists (list_set o (Z.to_nat i) (g i)). split; [|split; [|split]].
    + apply zset_ok. lia.
    + now rewrite zlen_list_set.
    + intros j Hj. rewrite zget_list_set by lia. destruct (Z.eqb_spec i j).
      * subst. congruence.
      * apply H2; auto; lia.
    + intros j Hj. rewrite zget_list_set by lia. destruct (Z.eqb_spec i j); [lia|]. apply H3; lia.
  - exists o'. auto.
Qed.

(** Folding over an index range is folding over the list it indexes. *)
Lemma foldM_index {A S} (f : S -> A -> res S) (l : list A) s :
  foldM (fun s i => let* a := zget l i in f s a) s (zrange (zlen l)) = foldM f s l.
Proof.
  assert (H : forall todo done_ s, l = done_ ++ todo ->
    foldM (fun s i => let* a := zget l i in f s a) s
      (map Z.of_nat (seq (length done_) (length todo))) = foldM f s todo).
  { induction todo as [|a todo IH]; intros done_ s0 El; simpl; auto.
    assert (Ha : zget l (Z.of_nat (length done_)) = Ret a).
    { apply zget_Ret. split; [lia|]. rewrite Nat2Z.id, El, nth_error_app2, Nat.sub_diag by lia. auto. }
    rewrite Ha. simpl. destruct (f s0 a); simpl; auto.
    specialize (IH (done_ ++ [a])). rewrite app_length in IH. simpl in IH.
    rewrite Nat.add_1_r in IH. apply IH. now rewrite <- app_assoc. }
  unfold zrange, zlen. rewrite Nat2Z.id. apply (H l []). auto.
Qed.

Lemma foldM_ext {A S} (f g : S -> A -> res S) l s :
  (forall s a, In a l -> f s a = g s a) -> foldM f s l = foldM g s l.
Proof.
  revert s; induction l as [|a l IH]; intros s H; simpl; auto.
  rewrite H by (left; auto). destruct (g s a); simpl; auto. apply IH. intros; apply H; right; auto.
Qed.

(** If each item evaluates to [b], folding a step over the items is folding over the [b]s. *)
Lemma foldM_map2 {A B S} (ev : A -> res B) (step : S -> B -> res S) la lb s :
  Forall2 (fun a b => ev a = Ret b) la lb ->
  foldM (fun s a => let* b := ev a in step s b) s la = foldM step s lb.
Proof.
  intros H; revert s; induction H as [|a b la lb E H IH]; intros s; simpl; auto.
  rewrite E. simpl. destruct (step s b); simpl; auto.
Qed.
