(** Concrete fitted models, used to show that the hypotheses of the theorems can be met. *)
From Coq Require Import ZArith List Bool Reals Lia Lra Permutation.
From Flocq Require Import Core BinarySingleNaN.
From Verif.Base Require Import Res CInt Float.
From Verif.Model Require Import TreesConvert TreesC TreesWrapper.
From Verif.Spec Require Import TreesSpec TreesCSpec VoteSpec ClassifierSpec.
From Verif.Proof Require Import Quantize.
Import ListNotations.
Open Scope Z_scope.

(** a/b as a float64 *)
Definition q (a b : Z) : f64 := fdiv (f_of_Z a) (f_of_Z b).

(** Five nodes over two features, three classes: root x0 vs 7/2, then x1 vs -5/4. *)
Definition tree_a : sktree pynum (list f64) := mk_sktree 5
  [1; -1; 3; -1; -1] [2; -1; 4; -1; -1] [0; -2; 1; -2; -2]
  [PyFloat (q 7 2); PyFloat (q (-2) 1); PyFloat (q (-5) 4); PyFloat (q (-2) 1); PyFloat (q (-2) 1)]
  [[[q 1 4; q 1 2; q 1 4]]; [[q 1 1; q 0 1; q 0 1]]; [[q 0 1; q 3 4; q 1 4]];
   [[q 0 1; q 1 1; q 0 1]]; [[q 0 1; q 1 8; q 7 8]]] 1.
(** Three nodes. *)
Definition tree_b : sktree pynum (list f64) := mk_sktree 3
  [1; -1; -1] [2; -1; -1] [1; -2; -2]
  [PyFloat (q 10 1); PyFloat (q (-2) 1); PyFloat (q (-2) 1)]
  [[[q 1 2; q 1 2; q 0 1]]; [[q 1 1; q 0 1; q 0 1]]; [[q 0 1; q 1 1; q 0 1]]] 1.
(** A single leaf. *)
Definition tree_1 (row : list f64) : sktree pynum (list f64) :=
  mk_sktree 1 [-1] [-1] [-2] [PyFloat (q (-2) 1)] [[row]] 1.
(** A regression tree. *)
Definition tree_r : sktree pynum (list f64) := mk_sktree 3
  [1; -1; -1] [2; -1; -1] [0; -2; -2]
  [PyFloat (q 1 2); PyFloat (q (-2) 1); PyFloat (q (-2) 1)]
  [[[q 1 3]]; [[q 1 10]]; [[q (-22) 7]]] 1.

Lemma zget5 {A} (a b c d e x : A) i : zget [a;b;c;d;e] i = Ret x ->
  (i = 0 /\ x = a) \/ (i = 1 /\ x = b) \/ (i = 2 /\ x = c) \/ (i = 3 /\ x = d) \/ (i = 4 /\ x = e).
Proof.
  intros H. pose proof (zget_bound _ _ _ H) as B. change (zlen [a;b;c;d;e]) with 5 in B.
  assert (i = 0 \/ i = 1 \/ i = 2 \/ i = 3 \/ i = 4) as C by lia.
  destruct C as [->|[->|[->|[->| ->]]]]; injection H as <-; auto 10.
Qed.
Lemma zget3 {A} (a b c x : A) i : zget [a;b;c] i = Ret x ->
  (i = 0 /\ x = a) \/ (i = 1 /\ x = b) \/ (i = 2 /\ x = c).
Proof.
  intros H. pose proof (zget_bound _ _ _ H) as B. change (zlen [a;b;c]) with 3 in B.
  assert (i = 0 \/ i = 1 \/ i = 2) as C by lia.
  destruct C as [->|[->| ->]]; injection H as <-; auto 10.
Qed.
Lemma zget1 {A} (a x : A) i : zget [a] i = Ret x -> i = 0 /\ x = a.
Proof.
  intros H. pose proof (zget_bound _ _ _ H) as B. change (zlen [a]) with 1 in B.
  assert (i = 0) as -> by lia. injection H as <-; auto.
Qed.

Ltac rows1 := repeat (apply Forall_cons; [reflexivity|]); apply Forall_nil.
Ltac wf_start := constructor; [simpl; lia | reflexivity | reflexivity | reflexivity | reflexivity | reflexivity | reflexivity | rows1 | | ].

Lemma wf_a : wf_sktree 2 tree_a.
Proof.
  wf_start.
  - simpl. intros i l r f Hl Hr Hf. apply zget5 in Hl.
    destruct Hl as [[-> ->]|[[-> ->]|[[-> ->]|[[-> ->]|[-> ->]]]]]; injection Hr as <-; injection Hf as <-; lia.
  - simpl. change (zrange (5-1)) with [0;1;2;3]. simpl.
    apply perm_skip, perm_swap.
Qed.
Lemma wf_b : wf_sktree 2 tree_b.
Proof.
  wf_start.
  - simpl. intros i l r f Hl Hr Hf. apply zget3 in Hl.
    destruct Hl as [[-> ->]|[[-> ->]|[-> ->]]]; injection Hr as <-; injection Hf as <-; lia.
  - apply Permutation_refl.
Qed.
Lemma wf_r : wf_sktree 2 tree_r.
Proof.
  wf_start.
  - simpl. intros i l r f Hl Hr Hf. apply zget3 in Hl.
    destruct Hl as [[-> ->]|[[-> ->]|[-> ->]]]; injection Hr as <-; injection Hf as <-; lia.
  - apply Permutation_refl.
Qed.
Lemma wf_1 row nf : wf_sktree nf (tree_1 row).
Proof.
  wf_start.
  - simpl. intros i l r f Hl Hr Hf. apply zget1 in Hl as [-> ->]. injection Hr as <-. auto.
  - apply Permutation_refl.
Qed.


(** A row of probabilities, by computation. *)
Lemma proba_row_ok n row : zlen row = n ->
  forallb (fun x => fleb x f64_1 && fleb fzero x) row = true -> proba_row n row.
Proof.
  intros Hl H. split; auto. apply Forall_forall. intros x Hx. rewrite forallb_forall in H.
  specialize (H x Hx). apply andb_prop in H. now apply in01_check.
Qed.
Lemma proba_class n row : proba_row n row -> class_row n row.
Proof. intros [H1 H2]. split; auto. eapply Forall_impl; [|exact H2]. simpl; tauto. Qed.

Ltac each tac := first [apply Forall_nil | apply Forall_cons; [tac | each tac]].
Lemma rows_ok {P : list f64 -> Prop} : forall (t : sktree pynum (list f64)),
  Forall P (concat (sk_value t)) -> Forall (Forall P) (sk_value t).
Proof. intros t. induction (sk_value t); simpl; intros H; constructor; apply Forall_app in H as [H1 H2]; auto. Qed.

(** Soft and hard voting forests: one tree of each shape. *)
Definition forest_abc : sk_forest := [tree_a; tree_b; tree_1 [q 1 4; q 1 4; q 1 2]].
Lemma fitted_proba : fitted 2 (proba_row 3) forest_abc.
Proof.
  constructor; try discriminate; try lia.
  - each ltac:(first [apply wf_a | apply wf_b | apply wf_1]).
  - each ltac:(apply rows_ok; cbn [concat sk_value app tree_a tree_b tree_1]; each ltac:(apply proba_row_ok; vm_compute; reflexivity)).
Qed.
Lemma fitted_mono nf (P Q : list f64 -> Prop) t : (forall r, P r -> Q r) -> fitted nf P t -> fitted nf Q t.
Proof.
  intros H [A B C D]. constructor; auto. eapply Forall_impl; [|exact D]. intros x Hx.
  eapply Forall_impl; [|exact Hx]. intros y Hy. eapply Forall_impl; [|exact Hy]. auto.
Qed.
Lemma fitted_class : fitted 2 (class_row 3) forest_abc.
Proof. eapply fitted_mono; [|exact fitted_proba]. intros; now apply proba_class. Qed.

Lemma small_abc : small_model 2 forest_abc.
Proof.
  split; [lia|]. split; [vm_compute; discriminate|].
  each ltac:(cbn [sk_threshold tree_a tree_b tree_r tree_1]; each ltac:(
    cbv beta; match goal with |- exists k, py_int ?x = Ret k /\ _ =>
      let v := eval vm_compute in (py_int x) in
      match v with Ret ?k => exists k; split; [vm_compute; reflexivity | unfold int16_ok; lia] end end)).
Qed.

(** The soft-voting witness: three single-leaf trees. *)
Definition forest_soft3 : sk_forest :=
  [tree_1 [q 3 4; q 1 8; q 1 8]; tree_1 [q 1 8; q 1 2; q 3 8]; tree_1 [q 1 8; q 3 8; q 1 2]].
Lemma fitted_soft3 : fitted 1 (proba_row 3) forest_soft3.
Proof.
  constructor; try discriminate; try lia.
  - each ltac:(apply wf_1).
  - each ltac:(apply rows_ok; cbn [concat sk_value app tree_a tree_b tree_1]; each ltac:(apply proba_row_ok; vm_compute; reflexivity)).
Qed.

(** Regression forest. *)
Definition forest_r : sk_forest := [tree_r; tree_1 [q 5 3]].
Lemma fitted_r : fitted 2 value_row forest_r.
Proof.
  constructor; try discriminate; try lia.
  - each ltac:(first [apply wf_r | apply wf_1]).
  - each ltac:(apply rows_ok; cbn [concat sk_value app tree_r tree_1]; each ltac:(eexists; (split; [reflexivity | vm_compute; reflexivity]))).
Qed.
Lemma small_r : small_model 2 forest_r.
Proof.
  split; [lia|]. split; [vm_compute; discriminate|].
  each ltac:(cbn [sk_threshold tree_a tree_b tree_r tree_1]; each ltac:(
    cbv beta; match goal with |- exists k, py_int ?x = Ret k /\ _ =>
      let v := eval vm_compute in (py_int x) in
      match v with Ret ?k => exists k; split; [vm_compute; reflexivity | unfold int16_ok; lia] end end)).
Qed.
