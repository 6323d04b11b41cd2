(** Model of the "inline" C program that generate_c_inlined emits (trees.py:350-578) and of its
    execution.  The emitted text is represented by its syntax tree; [K] is the type of threshold
    constants, [X] of features, [R] of the value returned by a tree function. *)
From Coq Require Import ZArith List Bool.
From Flocq Require Import Core BinarySingleNaN.
From Verif.Base Require Import Res CInt Float.
From Verif.Model Require Import Common TreesConvert TreesC.
Import ListNotations.
Open Scope Z_scope.
Open Scope res_scope.

(** trees.py:370-384: "return value;" and "if (features[f] < value) { left } else { right }" *)
Inductive itree (K R : Type) : Type :=
  | IReturn (r : R)
  | IIf (feature : Z) (value : K) (l r : itree K R).
Arguments IReturn {K R}. Arguments IIf {K R}.

Section Inline.
Context {K X R : Type}.
Variable const : pynum -> res K.         (* cgen.constant(value, dtype) of a threshold *)
Variable leaf_const : Z -> res R.        (* the returned constant for a leaf index *)
Variable lt : X -> K -> bool.            (* C comparison features[f] < constant *)

(** trees.py:386-401  c_node (with c_leaf, c_internal); Python recursion on fuel, running out of
    fuel stands for RecursionError. *)
Fixpoint c_node (fuel : nat) (nodes : list (dnode pynum)) (idx : Z) : res (itree K R) :=
  match fuel with
  | O => Err NoFuel
  | S fuel' =>
      if idx <? 0 then
        let leaf_idx := - idx - 1 in
        let* r := leaf_const leaf_idx in Ret (IReturn r)
      else
        let* n := pyget nodes idx in
        let* v := const (d_value n) in
        let* l := c_node fuel' nodes (d_left n) in
        let* r := c_node fuel' nodes (d_right n) in
        Ret (IIf (d_feature n) v l r)
  end.

(** Execution of a tree function. *)
Fixpoint run_tree (features : list X) (t : itree K R) : res R :=
  match t with
  | IReturn r => Ret r
  | IIf f v l r =>
      let* x := zget features f in
      if lt x v then run_tree features l else run_tree features r
  end.
End Inline.

(** The leaf constants of a classifier (trees.py:387-398, leaf_dtype 'int'):
    class number for hard voting, leaf index for soft voting. The tree functions return int32_t. *)
Definition class_leaf_const (leaves : list pyleaf) (leaf_bits : Z) (leaf_idx : Z) : res Z :=
  if leaf_bits =? 0 then
    let* l := pyget leaves leaf_idx in
    let* z := leaf_int l in Ret (to_int32 z)
  else Ret (to_int32 leaf_idx).

(** A generated classifier program: tree functions, byte table, constants. *)
Record inline_prog (K : Type) : Type := mk_inline {
  ip_trees : list (itree K Z);
  ip_leaves : list Z;
  ip_n_classes : Z;
  ip_leaf_bits : Z }.
Arguments ip_trees {K}. Arguments ip_leaves {K}. Arguments ip_n_classes {K}.
Arguments ip_leaf_bits {K}. Arguments mk_inline {K}.

(** trees.py:350-578, classifier case. Recursion depth is bounded by the number of nodes. *)
Definition generate_c_inlined {K} (const : pynum -> res K)
    (f : forest (T:=pynum) (L:=pyleaf)) (n_classes leaf_bits : Z) : res (inline_prog K) :=
  let '(nodes, roots, leaves) := f in
  let* lv := leaves_table leaves leaf_bits in
  let* ts := mapM (c_node const (class_leaf_const leaves leaf_bits) (S (length nodes)) nodes) roots in
  Ret (mk_inline ts lv n_classes leaf_bits).

Section Run.
Context {K X : Type}.
Variable lt : X -> K -> bool.

(** trees.py:415-416, 440-463  majority vote with int32_t counters *)
Definition inline_predict_hard (p : inline_prog K) (features : list X) : res Z :=
  let votes0 := repeat 0 (Z.to_nat (ip_n_classes p)) in
  let* votes := foldM (fun votes t =>
      let* _class := run_tree lt features t in
      let* v := zget votes _class in
      let* v' := chk_int32 (v + 1) in
      zset votes _class v') votes0 (ip_trees p) in
  let* (cls, _) := foldM (fun '(c, m) i =>
      let* x := zget votes i in
      if m <? x then Ret (i, x) else Ret (c, m))
    (-1, 0) (zrange (ip_n_classes p)) in
  Ret cls.

(** trees.py:418-419, 466-489  class proportions from votes. out_length is not checked. *)
Definition inline_proba_hard (p : inline_prog K) (features : list X) (out : list f32)
    (out_length : Z) : res (Z * list f32) :=
  let* out0 := clear_out out out_length in
  let* out1 := foldM (fun o t =>
      let* _class := run_tree lt features t in
      let* x := zget o _class in
      zset o _class (fadd x (f_of_Z 1))) out0 (ip_trees p) in
  let* out2 := mean_out out1 out_length (zlen (ip_trees p)) in
  Ret (0, out2).

(** trees.py:493-498  one soft vote *)
Definition inline_soft_step (p : inline_prog K) (features : list X) (o : list f32)
    (t : itree K Z) : res (list f32) :=
  let* leaf := run_tree lt features t in
  let* offset := chk_int32 (ip_n_classes p * leaf) in
  add_proportions (ip_leaves p) offset (ip_n_classes p) o.

(** trees.py:499-521 *)
Definition inline_proba_soft (p : inline_prog K) (features : list X) (out : list f32)
    (out_length : Z) : res (Z * list f32) :=
  let* out0 := clear_out out out_length in
  let* out1 := foldM (inline_soft_step p features) out0 (ip_trees p) in
  let* out2 := mean_out out1 out_length (zlen (ip_trees p)) in
  Ret (0, out2).

(** trees.py:524-549  argmax of the sums (not divided by the number of trees) *)
Definition inline_predict_soft (p : inline_prog K) (features : list X) : res Z :=
  let out0 := repeat fzero (Z.to_nat (ip_n_classes p)) in
  let* out1 := foldM (inline_soft_step p features) out0 (ip_trees p) in
  argmax_f32 out1 (ip_n_classes p).

(** trees.py:553-558  which function is emitted *)
Definition inline_predict (p : inline_prog K) (features : list X) : res Z :=
  if ip_leaf_bits p =? 0 then inline_predict_hard p features else inline_predict_soft p features.
Definition inline_predict_proba (p : inline_prog K) (features : list X) (out : list f32)
    (out_length : Z) : res (Z * list f32) :=
  if ip_leaf_bits p =? 0 then inline_proba_hard p features out out_length
  else inline_proba_soft p features out out_length.
End Run.

(** dtype='int16_t' (the default): integer constants, integer comparison after promotion. *)
Definition generate_c_inlined_int16 := generate_c_inlined py_int.
Definition inline_predict_int16 := inline_predict Z.ltb.
Definition inline_predict_proba_int16 := inline_predict_proba Z.ltb.
