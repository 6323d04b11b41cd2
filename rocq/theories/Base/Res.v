(** Error monad used by every model.

    [Ret a]  the C or Python function returned [a];
    [Err f]  it did something it must not do: C undefined behaviour, an uncaught
             Python exception, or it did not finish within the fuel given. *)
From Coq Require Import ZArith List Lia Bool.
Import ListNotations.
Open Scope Z_scope.

(** Keep [simpl] from unfolding binary arithmetic on variables. *)
#[global] Arguments Z.add : simpl never.
#[global] Arguments Z.sub : simpl never.
#[global] Arguments Z.mul : simpl never.
#[global] Arguments Z.of_nat : simpl never.

Inductive fault : Type :=
  (* C undefined / unspecified behaviour *)
  | OutOfBounds        (* access outside an object *)
  | SignedOverflow     (* signed integer overflow *)
  | DivByZero          (* integer division or remainder by zero *)
  | BadShift           (* shift count out of range, or left shift of a negative number *)
  | BadCast            (* float to integer conversion out of range *)
  | NullDeref
  | Uninitialised      (* use of a variable that was never assigned *)
  | OverlappingCopy    (* memcpy between overlapping regions *)
  | CompileError       (* the C compiler refuses the program *)
  (* Python exceptions *)
  | AssertionError_ | ValueError_ | KeyError_ | IndexError_ | AttributeError_
  | TypeError_ | ZeroDivisionError_ | OverflowError_ | FloatingPointError_ | RuntimeError_
  (* the model ran out of fuel: excluded by the termination theorems *)
  | NoFuel.

Inductive res (A : Type) : Type :=
  | Ret (a : A)
  | Err (f : fault).
Arguments Ret {A} a.
Arguments Err {A} f.

Definition bind {A B} (x : res A) (k : A -> res B) : res B :=
  match x with Ret a => k a | Err f => Err f end.

Declare Scope res_scope.
Delimit Scope res_scope with res.
Notation "'let*' x ':=' e 'in' k" := (bind e (fun x => k))
  (at level 200, x pattern, e at level 100, k at level 200, right associativity) : res_scope.
Notation "'do*' e ';' k" := (bind e (fun _ => k))
  (at level 200, e at level 100, k at level 200, right associativity) : res_scope.
Open Scope res_scope.

(** [assert b, ...] in Python. *)
Definition py_assert (b : bool) : res unit := if b then Ret tt else Err AssertionError_.

Definition res_map {A B} (f : A -> B) (x : res A) : res B := let* a := x in Ret (f a).

(** Map a fallible function over a list, in order, stopping at the first fault. *)
Fixpoint mapM {A B} (f : A -> res B) (l : list A) : res (list B) :=
  match l with
  | [] => Ret []
  | a :: l' => let* b := f a in let* bs := mapM f l' in Ret (b :: bs)
  end.

(** A loop over a known list of items, threading a state. *)
Fixpoint foldM {A S} (f : S -> A -> res S) (s : S) (l : list A) : res S :=
  match l with
  | [] => Ret s
  | a :: l' => let* s' := f s a in foldM f s' l'
  end.

(** C arrays: bounds-checked read and write at a [Z] index. *)
Definition zget {A} (l : list A) (i : Z) : res A :=
  if i <? 0 then Err OutOfBounds
  else match nth_error l (Z.to_nat i) with Some a => Ret a | None => Err OutOfBounds end.

Fixpoint list_set {A} (l : list A) (n : nat) (v : A) : list A :=
  match l, n with
  | [], _ => []
  | _ :: l', O => v :: l'
  | a :: l', S n' => a :: list_set l' n' v
  end.

Definition zset {A} (l : list A) (i : Z) (v : A) : res (list A) :=
  if (0 <=? i) && (i <? Z.of_nat (length l)) then Ret (list_set l (Z.to_nat i) v)
  else Err OutOfBounds.

Definition zlen {A} (l : list A) : Z := Z.of_nat (length l).

(** Python sequence indexing: negative indices count from the end. *)
Definition pyget {A} (l : list A) (i : Z) : res A :=
  let j := if i <? 0 then i + zlen l else i in
  if j <? 0 then Err IndexError_
  else match nth_error l (Z.to_nat j) with Some a => Ret a | None => Err IndexError_ end.

(** Iteration space [for (i=0; i<n; i++)] (empty when n <= 0), Python [range(n)]. *)
Definition zrange (n : Z) : list Z := map Z.of_nat (seq 0 (Z.to_nat n)).

(** ---- lemmas ---- *)

Lemma bind_Ret {A B} (x : res A) (k : A -> res B) b :
  bind x k = Ret b <-> exists a, x = Ret a /\ k a = Ret b.
Proof.
  destruct x as [a|f]; simpl; split.
  - eauto.
  - intros (a' & E & H); now inversion E; subst.
  - discriminate.
  - intros (a' & E & _); discriminate.
Qed.

Ltac inv H := inversion H; clear H; subst.

(** Destructs hypotheses of the form [bind ... = Ret _]. *)
Ltac invbind H :=
  repeat match type of H with
  | bind _ _ = Ret _ =>
      let a := fresh "a" in let E := fresh "E" in
      apply bind_Ret in H; destruct H as (a & E & H); cbv beta in H
  end.

Lemma list_set_length {A} (l : list A) n v : length (list_set l n v) = length l.
Proof. revert n; induction l; destruct n; simpl; auto. Qed.

Lemma nth_error_list_set_eq {A} (l : list A) n v :
  (n < length l)%nat -> nth_error (list_set l n v) n = Some v.
Proof. revert n; induction l; destruct n; simpl; intros; try lia; auto. apply IHl; lia. Qed.

Lemma nth_error_list_set_ne {A} (l : list A) n m v :
  n <> m -> nth_error (list_set l n v) m = nth_error l m.
Proof.
  revert n m; induction l; destruct n; destruct m; simpl; intros; try lia; auto;
  try congruence; try (apply IHl; congruence).
Qed.

Lemma zget_Ret {A} (l : list A) i a :
  zget l i = Ret a <-> 0 <= i /\ nth_error l (Z.to_nat i) = Some a.
Proof.
  unfold zget. destruct (Z.ltb_spec i 0).
  - split; [discriminate|lia].
  - destruct (nth_error l (Z.to_nat i)); split; try (intros [_ E]); try discriminate;
    intros; try split; try lia; try congruence.
Qed.

Lemma zget_bound {A} (l : list A) i a : zget l i = Ret a -> 0 <= i < zlen l.
Proof.
  intros H; apply zget_Ret in H as [H1 H2].
  assert (Z.to_nat i < length l)%nat by (apply nth_error_Some; congruence).
  unfold zlen; lia.
Qed.

Lemma zget_ok {A} (l : list A) i : 0 <= i < zlen l -> exists a, zget l i = Ret a.
Proof.
  intros H. destruct (nth_error l (Z.to_nat i)) as [a|] eqn:E.
  - exists a. apply zget_Ret. split; [lia|auto].
  - exfalso. apply nth_error_None in E. unfold zlen in H; lia.
Qed.

Lemma zget_nth {A} (l : list A) i d : 0 <= i < zlen l -> zget l i = Ret (nth (Z.to_nat i) l d).
Proof.
  intros H. apply zget_Ret. split; [lia|]. apply nth_error_nth'. unfold zlen in H; lia.
Qed.

Lemma pyget_zget {A} (l : list A) i a : zget l i = Ret a -> pyget l i = Ret a.
Proof.
  intros H; apply zget_Ret in H as [H1 H2]. unfold pyget.
  destruct (Z.ltb_spec i 0); [lia|]. destruct (Z.ltb_spec i 0); [lia|]. now rewrite H2.
Qed.

Lemma zset_Ret {A} (l : list A) i v l' :
  zset l i v = Ret l' <-> 0 <= i < zlen l /\ l' = list_set l (Z.to_nat i) v.
Proof.
  unfold zset, zlen.
  destruct (Z.leb_spec 0 i); destruct (Z.ltb_spec i (Z.of_nat (length l))); simpl; split;
    try discriminate; try lia; intros; try (split; [lia|]); try congruence; try lia.
  destruct H1 as [_ ->]; auto.
Qed.

Lemma zset_ok {A} (l : list A) i v :
  0 <= i < zlen l -> zset l i v = Ret (list_set l (Z.to_nat i) v).
Proof. intros; apply zset_Ret; auto. Qed.

Lemma zlen_list_set {A} (l : list A) n v : zlen (list_set l n v) = zlen l.
Proof. unfold zlen; now rewrite list_set_length. Qed.

Lemma zlen_nonneg {A} (l : list A) : 0 <= zlen l.
Proof. unfold zlen; lia. Qed.

Lemma zlen_app {A} (l1 l2 : list A) : zlen (l1 ++ l2) = zlen l1 + zlen l2.
Proof. unfold zlen; rewrite app_length; lia. Qed.

Lemma zlen_cons {A} (a : A) l : zlen (a :: l) = 1 + zlen l.
Proof. unfold zlen; simpl length; lia. Qed.

Lemma zlen_map {A B} (f : A -> B) l : zlen (map f l) = zlen l.
Proof. unfold zlen; now rewrite map_length. Qed.

Lemma zrange_In n i : In i (zrange n) <-> 0 <= i < n.
Proof.
  unfold zrange. rewrite in_map_iff. split.
  - intros (k & <- & H). apply in_seq in H. lia.
  - intros H. exists (Z.to_nat i). split; [lia|]. apply in_seq. lia.
Qed.

Lemma zrange_length n : length (zrange n) = Z.to_nat n.
Proof. unfold zrange. now rewrite map_length, seq_length. Qed.

Lemma zrange_S n : 0 <= n -> zrange (n + 1) = zrange n ++ [n].
Proof.
  intros. unfold zrange. replace (Z.to_nat (n+1)) with (S (Z.to_nat n)) by lia.
  rewrite seq_S, map_app; simpl. do 2 f_equal. lia.
Qed.

Lemma zrange_0 n : n <= 0 -> zrange n = [].
Proof. intros. unfold zrange. now replace (Z.to_nat n) with O by lia. Qed.

Lemma mapM_Ret {A B} (f : A -> res B) l l' :
  mapM f l = Ret l' <-> Forall2 (fun a b => f a = Ret b) l l'.
Proof.
  revert l'; induction l as [|a l IH]; simpl; intros l'.
  - split; intros H; inv H; auto.
  - split; intros H.
    + invbind H. inv H. constructor; auto. now apply IH.
    + inv H. rewrite H2. simpl. apply IH in H4. rewrite H4. reflexivity.
Qed.

Lemma foldM_app {A S} (f : S -> A -> res S) l1 l2 s :
  foldM f s (l1 ++ l2) = let* s' := foldM f s l1 in foldM f s' l2.
Proof.
  revert s; induction l1 as [|a l1 IH]; simpl; intros; auto.
  destruct (f s a); simpl; auto.
Qed.

(** Invariant rule for loops over a list. *)
Lemma foldM_inv {A S} (f : S -> A -> res S) (P : list A -> S -> Prop) l s :
  P [] s ->
  (forall done_ a todo s0, l = done_ ++ a :: todo -> P done_ s0 ->
     exists s1, f s0 a = Ret s1 /\ P (done_ ++ [a]) s1) ->
  exists s', foldM f s l = Ret s' /\ P l s'.
Proof.
  intros H0 Hstep.
  assert (forall todo done_ s0, l = done_ ++ todo -> P done_ s0 ->
     exists s', foldM f s0 todo = Ret s' /\ P l s').
  { induction todo as [|a todo IH]; intros done_ s0 El HP; simpl.
    - exists s0. rewrite app_nil_r in El. subst. auto.
    - destruct (Hstep done_ a todo s0 El HP) as (s1 & E1 & HP1). rewrite E1; simpl.
      apply (IH (done_ ++ [a])); auto. now rewrite <- app_assoc. }
  apply (H l []); auto.
Qed.

(** Invariant rule for counting loops. *)
Lemma foldM_range_inv {S} (f : S -> Z -> res S) (P : Z -> S -> Prop) n s :
  0 <= n -> P 0 s ->
  (forall i s0, 0 <= i < n -> P i s0 -> exists s1, f s0 i = Ret s1 /\ P (i + 1) s1) ->
  exists s', foldM f s (zrange n) = Ret s' /\ P n s'.
Proof.
  intros Hn H0 Hstep.
  destruct (foldM_inv f (fun d s => P (zlen d) s) (zrange n) s) as (s' & E & HP).
  - exact H0.
  - intros d a todo s0 El HP.
    assert (Ha : a = zlen d).
    { assert (H : nth_error (zrange n) (length d) = Some a).
      { rewrite El, nth_error_app2, Nat.sub_diag by lia. reflexivity. }
      unfold zrange in H. rewrite nth_error_map in H.
      destruct (nth_error (seq 0 (Z.to_nat n)) (length d)) eqn:E1; [|discriminate].
      apply nth_error_nth with (d:=O) in E1 as E2.
      assert (length d < Z.to_nat n)%nat.
      { rewrite <- (seq_length (Z.to_nat n) 0). apply nth_error_Some. congruence. }
      rewrite seq_nth in E2 by auto. simpl in H. inv H. unfold zlen. lia. }
    assert (0 <= a < n) by (apply zrange_In; rewrite El; apply in_elt).
    subst a. destruct (Hstep _ _ H HP) as (s1 & E1 & HP1). exists s1; split; auto.
    rewrite zlen_app. exact HP1.
  - exists s'; split; auto. unfold zlen in HP. rewrite zrange_length in HP.
    now rewrite Z2Nat.id in HP.
Qed.
