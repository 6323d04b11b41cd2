(** Specification of tree conversion, independent of the converter.

    A left/right decision procedure [go : Z -> T -> bool] says, for a feature number and a
    threshold, whether to go left. *)
From Coq Require Import ZArith List Permutation.
From Verif.Base Require Import Res.
From Verif.Model Require Import TreesConvert.
Import ListNotations.
Open Scope Z_scope.

(** A tree array as scikit-learn builds it: non-empty parallel arrays, one output, a node is
    either a leaf (both children -1) or has both children, numbered later than itself, and a
    feature below [nf]; every node except the root (node 0) is the child of exactly one node. *)
Record wf_sktree {T V} (nf : Z) (t : sktree T V) : Prop := {
  wf_count : 1 <= sk_node_count t;
  wf_len_left : zlen (sk_left t) = sk_node_count t;
  wf_len_right : zlen (sk_right t) = sk_node_count t;
  wf_len_feature : zlen (sk_feature t) = sk_node_count t;
  wf_len_threshold : zlen (sk_threshold t) = sk_node_count t;
  wf_len_value : zlen (sk_value t) = sk_node_count t;
  wf_outputs : sk_outputs t = 1;
  wf_value_rows : Forall (fun row => length row = 1%nat) (sk_value t);
  wf_nodes : forall i l r f,
    zget (sk_left t) i = Ret l -> zget (sk_right t) i = Ret r -> zget (sk_feature t) i = Ret f ->
    (l = -1 /\ r = -1) \/
    (i < l < sk_node_count t /\ i < r < sk_node_count t /\ 0 <= f < nf);
  wf_children :
    Permutation (filter (fun c => 0 <=? c) (sk_left t ++ sk_right t))
                (map (fun i => i + 1) (zrange (sk_node_count t - 1)))
}.

(** scikit-learn's own walk (Tree.apply): from node [i], following [go], one ends in a leaf
    node holding the output row [v]. *)
Inductive sk_reaches {T V} (t : sktree T V) (go : Z -> T -> bool) : Z -> V -> Prop :=
| sk_reaches_leaf i v :
    zget (sk_left t) i = Ret (-1) -> zget (sk_right t) i = Ret (-1) ->
    zget (sk_value t) i = Ret [v] ->
    sk_reaches t go i v
| sk_reaches_node i l r f th v :
    zget (sk_left t) i = Ret l -> zget (sk_right t) i = Ret r ->
    ~ (l = -1 /\ r = -1) ->
    zget (sk_feature t) i = Ret f -> zget (sk_threshold t) i = Ret th ->
    sk_reaches t go (if go f th then l else r) v ->
    sk_reaches t go i v.

(** The leaf conversion succeeds for every node value of the tree. *)
Definition leaves_convertible {T V L} (mk_leaf : V -> res L) (t : sktree T V) : Prop :=
  Forall (Forall (fun v => exists l, mk_leaf v = Ret l)) (sk_value t).

(** Walking the flat arrays from reference [c] (>= 0 decision node, -k-1 leaf k) ends in
    leaf number [k]. *)
Inductive flat_leaf {T} (nodes : list (dnode T)) (go : Z -> T -> bool) : Z -> Z -> Prop :=
| flat_leaf_leaf c : c < 0 -> flat_leaf nodes go c (- c - 1)
| flat_leaf_node c n k :
    zget nodes c = Ret n ->
    flat_leaf nodes go (if go (d_feature n) (d_value n) then d_left n else d_right n) k ->
    flat_leaf nodes go c k.

(** ... and the leaf table holds [l] there. *)
Definition flat_reaches {T L} (nodes : list (dnode T)) (leaves : list L) (go : Z -> T -> bool)
    (c : Z) (l : L) : Prop :=
  exists k, flat_leaf nodes go c k /\ zget leaves k = Ret l.

(** References are valid: leaves inside the leaf table, decision nodes strictly later inside the
    node table, feature numbers below [nf]. *)
Definition valid_ref (n_nodes n_leaves index c : Z) : Prop :=
  (0 <= c -> index < c < n_nodes) /\ (c < 0 -> - c - 1 < n_leaves).
Definition valid_nodes {T} (nf n_leaves : Z) (nodes : list (dnode T)) : Prop :=
  forall i n, zget nodes i = Ret n ->
    0 <= d_feature n < nf /\
    valid_ref (zlen nodes) n_leaves i (d_left n) /\
    valid_ref (zlen nodes) n_leaves i (d_right n).

(** Every node is a root or somebody's child; every leaf is somebody's child. *)
Definition is_child {T} (nodes : list (dnode T)) (c : Z) : Prop :=
  exists i n, zget nodes i = Ret n /\ (d_left n = c \/ d_right n = c).
Definition all_referenced {T} (nodes : list (dnode T)) (roots : list Z) (n_leaves : Z) : Prop :=
  (forall i, 0 <= i < zlen nodes -> In i roots \/ is_child nodes i) /\
  (forall k, 0 <= k < n_leaves -> is_child nodes (- k - 1)).

(** The tree [t] is represented in the forest at [root]: whatever the decisions, the walk from
    [root] ends in a leaf equivalent ([eqv]) to the conversion of the value sklearn reaches. *)
Definition represents {T V L} (mk_leaf : V -> res L) (eqv : L -> L -> Prop)
    (nodes : list (dnode T)) (leaves : list L) (t : sktree T V) (root : Z) : Prop :=
  0 <= root < zlen nodes /\
  forall go v, sk_reaches t go 0 v ->
    exists l l', mk_leaf v = Ret l /\ eqv l l' /\ flat_reaches nodes leaves go root l'.

(** Number of decision nodes plus leaves of a converted tree. *)
Definition flat_size {T V} (t : sktree T V) : Z :=
  if sk_node_count t =? 1 then 2 else sk_node_count t.

Definition no_equal_entries {L} (leaf_eqb : L -> L -> bool) (l : list L) : Prop :=
  forall i j a b, i < j -> zget l i = Ret a -> zget l j = Ret b -> leaf_eqb b a = false.

(** A child reference [c] before and [c'] after de-duplication denote the same thing: decision
    nodes are untouched, a leaf reference now denotes a leaf equal to the old one. *)
Definition same_child {L} (leaf_eqb : L -> L -> bool) (leaves leaves' : list L) (c c' : Z) : Prop :=
  (0 <= c -> c' = c) /\
  (c < 0 -> c' < 0 /\ exists l l', zget leaves (- c - 1) = Ret l /\ zget leaves' (- c' - 1) = Ret l' /\
                                 leaf_eqb l l' = true).
