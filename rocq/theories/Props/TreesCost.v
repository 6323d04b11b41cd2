(** C98, C99: what evaluating a tree model costs. *)
From Coq Require Import ZArith List Bool Reals Lia Lra.
From Verif.Base Require Import Res Float.
From Verif.Model Require Import TreesConvert TreesC TreesWrapper TreesCost.
From Verif.Spec Require Import TreesSpec TreesCSpec ClassifierSpec RunSpec CostSpec.
From Verif.Proof Require TreesCost TreesFlatten.
From Verif.Props Require Import Samples Trees.
Import ListNotations.
Open Scope Z_scope.

(** ** C98: the cost estimate is not proportional to the number of decision nodes evaluated ... *)
Theorem C98_proportional_refuted :
  ~ exists C : R, forall nf n trees X nss est,
      fitted nf (class_row n) trees -> X <> [] ->
      Forall2 (fun t ns => Forall2 (fun row k => evaluates t (go_sk row) 0 k) X ns) trees nss ->
      compute_cost_estimate go_sk trees X = Ret est ->
      est = (C * fold_right (fun ns s => mean_evaluations ns + s) 0 nss)%R.
Proof.
  intros [C H].
  set (trees := [tree_1 [q 1 4; q 1 4; q 1 2]]).
  assert (HF : fitted 2 (class_row 3) trees).
  { constructor; try discriminate; try lia.
    - each ltac:(apply wf_1).
    - apply Forall_cons; [|apply Forall_nil]. apply rows_ok. cbn [concat sk_value app tree_1].
      apply Forall_cons; [|apply Forall_nil]. apply proba_class, proba_row_ok; vm_compute; reflexivity. }
  destruct (TreesCost.cost_ok 2 go_sk [[q 1 1; q 1 1]] (fun E => nil_cons (eq_sym E)) trees) as (nss & F & E).
  { apply Forall_cons; [apply wf_1|apply Forall_nil]. }
  assert (HX : [[q 1 1; q 1 1]] <> []) by discriminate.
  specialize (H _ _ _ _ _ _ HF HX F E).
  inversion F as [|t ns ts nss' F1 F2]; subst. inversion F2; subst.
  inversion F1 as [|row k rows ks K1 K2]; subst. inversion K2; subst.
  assert (k = 0) as -> by (eapply TreesFlatten.evaluates_leaf_inv; [| |exact K1]; reflexivity).
  unfold mean_evaluations in H. cbn [fold_right] in H. change (zlen [0]) with 1 in H. change (zlen trees) with 1 in H.
  lra.
Qed.
(** ... it is larger by the number of trees: the leaf a row ends in is counted as well. For every dataset, every decision
    function and every list of well-formed trees, the estimate is the number of evaluations, averaged over the rows and
    added over the trees, plus the number of trees. *)
Theorem C98_estimate_partial : forall T V Row (go : Row -> Z -> T -> bool) nf (trees : list (sktree T V)) (X : list Row),
  X <> [] -> Forall (wf_sktree nf) trees ->
  exists nss, Forall2 (fun t ns => Forall2 (fun row n => evaluates t (go row) 0 n) X ns) trees nss /\
    compute_cost_estimate go trees X =
      Ret (fold_right (fun ns s => mean_evaluations ns + s) 0 nss + IZR (count_trees trees))%R.
Proof. intros T V Row go nf trees X HX HW. exact (TreesCost.cost_ok nf go X HX trees HW). Qed.
(** The number of evaluations is well defined. *)
Theorem C98_evaluations_unique : forall T V (t : sktree T V) go n m,
  evaluates t go 0 n -> evaluates t go 0 m -> n = m.
Proof. intros T V t go n m. exact (TreesCost.evaluates_det t go 0 n m). Qed.

(** Two rows: the first passes the root and a leaf, the second two nodes and a leaf, of tree_a. *)
Example C98_instance : path_sums go_lt tree_a [[1; 2]; [5; 7]] = Ret [2; 3] /\
  exists est, compute_cost_estimate go_lt forest_abc [[1; 2]; [5; 7]] = Ret est.
Proof.
  split; [vm_compute; reflexivity|].
  destruct (C98_estimate_partial _ _ _ go_lt 2 forest_abc [[1; 2]; [5; 7]]) as (nss & _ & E); [discriminate| |eauto].
  each ltac:(first [apply wf_a | apply wf_b | apply wf_1]).
Qed.

(** ** C99: the generated code evaluates each tree in exactly as many passes through its loop as the fitted tree has
    decision nodes on the path (one for a tree that is a single leaf), and never in more than the depth of the tree. *)
Theorem C99_passes : forall nf n trees classifier lb dt w m,
  convertible_model nf n trees classifier lb -> 1 <= n <= 127 ->
  wrapper_init classifier (Some MLoadable) dt lb trees nf n = Ret w -> fits_c (forest_nodes (w_forest w)) ->
  save_loadable w = Ret m ->
  Forall2 (fun t root => forall features, nf <= zlen features ->
     exists steps, evaluates t (go_lt features) 0 steps /\ takes m features root (Z.max 1 steps) /\
       forall d, depth t 0 d -> steps <= d) trees (et_tree_roots m).
Proof. exact TreesCost.c_loop_cost. Qed.

Example C99_instance : convertible_model 2 3 forest_abc true None /\ depth tree_a 0 2 /\
  (exists w m, wrapper_init true (Some MLoadable) None None forest_abc 2 3 = Ret w /\ save_loadable w = Ret m /\
     fits_c (forest_nodes (w_forest w)) /\
     predict_tree_loop 3 (et_nodes m) [5; 7] 0 = Ret (-3) /\ predict_tree_loop 2 (et_nodes m) [5; 7] 0 = Err NoFuel).
Proof.
  split; [left; split; [reflexivity|split; [left; reflexivity|exact fitted_class]]|]. split.
  - change 2 with (1 + Z.max 0 (1 + Z.max 0 0)).
    apply depth_node with (l := 1) (r := 2); [reflexivity|reflexivity|lia|apply depth_leaf; reflexivity|].
    apply depth_node with (l := 3) (r := 4); [reflexivity|reflexivity|lia|apply depth_leaf; reflexivity|apply depth_leaf; reflexivity].
  - destruct sample_hard as (w & m & E & F & S). exists w, m. split; [exact E|]. split; [exact S|]. split; [exact F|].
    assert (G : run_hard (fun m => Ret (predict_tree_loop 3 (et_nodes m) [5; 7] 0, predict_tree_loop 2 (et_nodes m) [5; 7] 0)) =
       Ret (Ret (-3), Err NoFuel)) by (vm_compute; reflexivity).
    unfold run_hard in G. rewrite E in G. cbn [bind] in G. rewrite S in G. cbn [bind] in G. split; congruence.
Qed.
