(** Model of the generated "loadable" tables and of the C inference code eml_trees.h. *)
From Coq Require Import ZArith List Bool.
From Flocq Require Import Core BinarySingleNaN Bits.
From Verif.Base Require Import Res CInt Float.
From Verif.Model Require Import Common TreesConvert.
Import ListNotations.
Open Scope Z_scope.
Open Scope res_scope.

(** Python numbers appearing as thresholds: numpy float64, or the int 0 of the dummy node. *)
Inductive pynum : Type := PyInt (z : Z) | PyFloat (x : f64).

(** [int(val)] (cgen.py:49): truncation toward zero; NaN raises ValueError, infinities
    OverflowError. *)
Definition py_int (v : pynum) : res Z :=
  match v with
  | PyInt z => Ret z
  | PyFloat x =>
      match x with
      | B754_nan => Err ValueError_
      | B754_infinity _ => Err OverflowError_
      | _ => Ret (ftrunc x)
      end
  end.

(** Converted leaves: class number (leaf='argmax'), class proportions as bytes
    (leaf='probabilities'), regression value (leaf='value'); trees.py:62-69. *)
Inductive pyleaf : Type :=
  | LClass (c : Z) | LProba (bytes : list Z) | LValue (x : f64).

(** ** Bytes of a binary32 (little endian), numpy tobytes / C reinterpretation. *)
Definition f32_bits (x : f32) : Z := bits_of_b32 (Binary.BSN2B 24 128 default_nan_pl32 x).
Definition f32_of_bits (b : Z) : f32 := Binary.B2BSN 24 128 (b32_of_bits b).
Definition bytes_of_bits (b : Z) : list Z :=
  [ b mod 256; (b / 256) mod 256; (b / 65536) mod 256; (b / 16777216) mod 256 ].
Definition bits_of_bytes (b0 b1 b2 b3 : Z) : Z := b0 + 256 * b1 + 65536 * b2 + 16777216 * b3.

(** ** leaves_to_bytelist (trees.py:329-347) followed by array_declare with dtype uint8_t:
    [int(v)] of each value stored in a uint8_t (trees.py:599-603, cgen.py:70-97). *)
Definition leaf_int (l : pyleaf) : res Z :=
  match l with
  | LClass c => Ret c
  | LValue x => py_int (PyFloat x)
  | LProba _ => Err TypeError_
  end.
Definition leaf_f32_bytes (l : pyleaf) : list Z :=
  match l with
  | LClass c => bytes_of_bits (f32_bits (f_of_Z c))
  | LValue x => bytes_of_bits (f32_bits (f32_of_f64 x))
  | LProba bs => flat_map (fun b => bytes_of_bits (f32_bits (f_of_Z b))) bs
  end.
(** numpy astype(uint8): modulo 256 for integers; for floats truncation (out of range is
    unspecified in numpy: modelled as modulo 256 of the truncated value). *)
Definition leaf_u8_bytes (l : pyleaf) : list Z :=
  match l with
  | LClass c => [to_uint8 c]
  | LValue x => [to_uint8 (ftrunc x)]
  | LProba bs => map to_uint8 bs
  end.
Definition leaves_table (leaves : list pyleaf) (leaf_bits : Z) : res (list Z) :=
  if leaf_bits =? 0 then
    let* zs := mapM leaf_int leaves in Ret (map to_uint8 zs)
  else if leaf_bits =? 32 then
    let out := flat_map leaf_f32_bytes leaves in
    do* py_assert (zlen out =? 4 * zlen leaves);
    Ret out
  else if leaf_bits <=? 8 then Ret (flat_map leaf_u8_bytes leaves)
  else Err ValueError_.

(** eml_trees.h:20-25  EmlTreesNode: feature int8_t, value/left/right int16_t. *)
Record cnode : Type := mk_cnode { cn_feature : Z; cn_value : Z; cn_left : Z; cn_right : Z }.

(** eml_trees.h:34-47  EmlTrees *)
Record eml_trees : Type := mk_eml_trees {
  et_n_nodes : Z; et_nodes : list cnode;
  et_n_trees : Z; et_tree_roots : list Z;
  et_n_leaves : Z; et_leaves : list Z;
  et_leaf_bits : Z; et_n_features : Z; et_n_classes : Z }.

(** trees.py:311-318  make_node, and the C initialiser narrowing of the struct fields.
    dtype is 'int16_t', the only one Wrapper accepts for method='loadable' (trees.py:733-734). *)
Definition make_node (index : Z) (n : dnode pynum) : res cnode :=
  let* l := encode_child index (d_left n) in
  let* r := encode_child index (d_right n) in
  let* v := py_int (d_value n) in
  Ret (mk_cnode (to_int8 (d_feature n)) (to_int16 v) (to_int16 l) (to_int16 r)).

(** trees.py:309-327 *)
Definition generate_c_nodes (nodes : list (dnode pynum)) : res (list cnode) :=
  mapM (fun '(i, n) => make_node i n) (enumerate nodes).

(** trees.py:581-618  generate_c_loadable: the struct the C compiler builds from the text. *)
Definition generate_c_loadable (f : forest (T:=pynum) (L:=pyleaf))
    (n_features n_classes leaf_bits : Z) : res eml_trees :=
  let '(nodes, roots, leaves) := f in
  let* cn := generate_c_nodes nodes in
  let* lv := leaves_table leaves leaf_bits in
  let tree_leaf_bits := if (leaf_bits =? 0) || (leaf_bits =? 32) then leaf_bits else 8 in
  Ret (mk_eml_trees (to_int32 (zlen nodes)) cn (to_int32 (zlen roots)) (map to_int32 roots)
         (to_int32 (zlen lv)) lv
         (to_int8 tree_leaf_bits) (to_int8 n_features) (to_int8 n_classes)).

(** eml_trees.h:80-97  the while loop of eml_trees_predict_tree. *)
Fixpoint predict_tree_loop (fuel : nat) (nodes : list cnode) (features : list Z) (node_idx : Z)
  : res Z :=
  match fuel with
  | O => Err NoFuel
  | S fuel' =>
      if 0 <=? node_idx then
        let* n := zget nodes node_idx in
        let* value := zget features (cn_feature n) in
        let point := cn_value n in
        let child := if value <? point then cn_left n else cn_right n in
        let* next := (if 0 <=? child then chk_int32 (node_idx + child) else Ret child) in
        predict_tree_loop fuel' nodes features next
      else Ret node_idx
  end.

(** eml_trees.h:73-107  eml_trees_predict_tree. Fuel: one more than the number of nodes;
    exceeding it is reported as NoFuel (the C loop would not have ended by then). *)
Definition eml_trees_predict_tree (self : eml_trees) (tree_root : Z) (features : list Z) : res Z :=
  let* node_idx := predict_tree_loop (S (length (et_nodes self))) (et_nodes self) features tree_root in
  Ret (to_int16 (- node_idx - 1)).

(** out[i] = v *)
Definition zset_f (out : list f32) (i : Z) (v : f32) : res (list f32) := zset out i v.

(** eml_trees.h:127-129  for (i=0; i<out_length; i++) out[i] = 0.0f *)
Definition clear_out (out : list f32) (out_length : Z) : res (list f32) :=
  foldM (fun o i => zset o i fzero) out (zrange out_length).

(** eml_trees.h:175-177  for (i..) out[i] = out[i] / n_trees; the int32 is converted to float. *)
Definition mean_out (out : list f32) (out_length n_trees : Z) : res (list f32) :=
  foldM (fun o i => let* x := zget o i in zset o i (fdiv x (f_of_Z n_trees)))
    out (zrange out_length).

(** eml_trees.h:135-143  majority vote of one tree *)
Definition vote_hard (self : eml_trees) (features : list Z) (out : list f32) (i : Z)
  : res (list f32) :=
  let* root := zget (et_tree_roots self) i in
  let* leaf_number := eml_trees_predict_tree self root features in
  let* class_no := zget (et_leaves self) leaf_number in
  let* x := zget out class_no in
  zset out class_no (fadd x (f_of_Z 1)).

(** eml_trees.h:157-160  inner loop over classes *)
Definition add_proportions (leaves : list Z) (leaf_offset n_classes : Z) (out : list f32)
  : res (list f32) :=
  foldM (fun o c =>
      let* b := zget leaves (leaf_offset + c) in
      let class_proportion := fdiv (f_of_Z b) (f_of_Z 255) in
      let* x := zget o c in
      zset o c (fadd x class_proportion))
    out (zrange n_classes).

(** eml_trees.h:151-160  soft vote of one tree *)
Definition vote_soft (self : eml_trees) (features : list Z) (out : list f32) (i : Z)
  : res (list f32) :=
  let* root := zget (et_tree_roots self) i in
  let* leaf_number := eml_trees_predict_tree self root features in
  let* leaf_offset := chk_int32 (leaf_number * (1 * et_n_classes self)) in
  add_proportions (et_leaves self) leaf_offset (et_n_classes self) out.

(** eml_trees.h:117-180  eml_trees_predict_proba (features and out not NULL). Returns the error
    code and the new content of [out]; the buffer may be longer than [out_length]. *)
Definition eml_trees_predict_proba (self : eml_trees) (features : list Z) (out : list f32)
    (out_length : Z) : res (eml_error * list f32) :=
  let n_outputs := et_n_classes self in
  if negb (out_length =? n_outputs) then Ret (EmlSizeMismatch, out)
  else
    let* out0 := clear_out out out_length in
    if et_leaf_bits self =? 0 then
      let* out1 := foldM (vote_hard self features) out0 (zrange (et_n_trees self)) in
      let* out2 := mean_out out1 out_length (et_n_trees self) in
      Ret (EmlOk, out2)
    else if et_leaf_bits self =? 8 then
      let* out1 := foldM (vote_soft self features) out0 (zrange (et_n_trees self)) in
      let* out2 := mean_out out1 out_length (et_n_trees self) in
      Ret (EmlOk, out2)
    else Ret (EmlUnsupported, out0).

(** eml_trees.h:65  EMTREES_MAX_CLASSES *)
Definition EMTREES_MAX_CLASSES : Z := 30.
(** eml_trees.h:49-54  EmlTreesError codes *)
Definition EmlTreesUnknownError : Z := 1.
Definition EmlTreesErrorLength : Z := 3.

(** eml_trees.h:218-226  argmax: state (most_voted_class, most_voted_value) *)
Definition argmax_f32 (votes : list f32) (n_classes : Z) : res Z :=
  let* (cls, _) := foldM (fun '(c, v) i =>
      let* x := zget votes i in
      if fltb v x then Ret (i, x) else Ret (c, v))
    (-1, fzero) (zrange n_classes) in
  Ret cls.

(** eml_trees.h:192-235  eml_trees_predict; [features_length] is converted to int8_t by the
    call. *)
Definition eml_trees_predict (self : eml_trees) (features : list Z) (features_length : Z)
  : res Z :=
  let fl := to_int8 features_length in
  if negb (fl =? et_n_features self) then Ret (- EmlTreesErrorLength)
  else if EMTREES_MAX_CLASSES <? et_n_classes self then Ret (- EmlTreesErrorLength)
  else
    let votes0 := repeat fzero (Z.to_nat EMTREES_MAX_CLASSES) in
    let n_classes := et_n_classes self in
    let* (err, votes) := eml_trees_predict_proba self features votes0 n_classes in
    match err with
    | EmlOk => argmax_f32 votes n_classes
    | _ => Ret (- EmlTreesUnknownError)
    end.

(** Reading a float through (float * )(leaves + offset): four bytes, little endian.
    Alignment of the byte table is not modelled. *)
Definition read_f32 (bytes : list Z) (offset : Z) : res f32 :=
  let* b0 := zget bytes offset in
  let* b1 := zget bytes (offset + 1) in
  let* b2 := zget bytes (offset + 2) in
  let* b3 := zget bytes (offset + 3) in
  Ret (f32_of_bits (bits_of_bytes b0 b1 b2 b3)).

(** eml_trees.h:250-289  eml_trees_regress *)
Definition eml_trees_regress (self : eml_trees) (features : list Z) (out : list f32)
    (out_length : Z) : res (eml_error * list f32) :=
  if out_length <? 1 then Ret (EmlSizeMismatch, out)
  else if negb (et_leaf_bits self =? 32) then Ret (EmlUnsupported, out)
  else
    let* sum := foldM (fun s i =>
        let* root := zget (et_tree_roots self) i in
        let* leaf_number := eml_trees_predict_tree self root features in
        let* leaf_offset := chk_int32 (leaf_number * 4) in
        let* val := read_f32 (et_leaves self) leaf_offset in
        Ret (fadd s val))
      fzero (zrange (et_n_trees self)) in
    let* out' := zset out 0 (fdiv sum (f_of_Z (et_n_trees self))) in
    Ret (EmlOk, out').

(** eml_trees.h:300-312  eml_trees_regress1 (the local array is uninitialised: its content is
    only read after eml_trees_regress wrote it). *)
Definition eml_trees_regress1 (self : eml_trees) (features : list Z) : res f32 :=
  let* (err, out) := eml_trees_regress self features [fzero] 1 in
  match err with
  | EmlOk => zget out 0
  | _ => Ret B754_nan
  end.
