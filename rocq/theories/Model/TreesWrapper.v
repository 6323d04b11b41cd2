(** Model of the leaf conversions, of trees.Wrapper (construction, save, predict) and of
    evaluate.trees model sizes. *)
From Coq Require Import ZArith List Bool.
From Flocq Require Import Core BinarySingleNaN.
From Verif.Base Require Import Res CInt Float.
From Verif.Model Require Import Common TreesConvert TreesC TreesInline.
Import ListNotations.
Open Scope Z_scope.
Open Scope res_scope.

(** numpy.argmax (trees.py:64) of one row: first maximum; a NaN counts as the maximum. *)
Definition np_gt (x y : f64) : bool := negb (is_nan y) && (is_nan x || fltb y x).
Fixpoint np_argmax_from (best : Z) (bv : f64) (i : Z) (l : list f64) : Z :=
  match l with
  | [] => best
  | x :: l' => if np_gt x bv then np_argmax_from i x (i + 1) l' else np_argmax_from best bv (i + 1) l'
  end.
Definition np_argmax (l : list f64) : res Z :=
  match l with
  | [] => Err ValueError_
  | x :: l' => Ret (np_argmax_from 0 x 1 l')
  end.

Definition f64_1 : f64 := f_of_Z 1.

(** trees.py:33-38: one element; [k] is steps-1 = 2**bits-2. astype(uint8) truncates. *)
Definition quantize1 (k : Z) (x : f64) : f64 := frint (fmul x (f_of_Z k)).
Definition scale_byte (k : Z) (q : f64) : Z := to_uint8 (ftrunc (fmul (fdiv q (f_of_Z k)) (f_of_Z 255))).

(** trees.py:24-39  quantize_probabilities_into_byte. The assertions on numpy.max/min hold iff
    they hold for every element (NaN fails every comparison and propagates through max/min);
    numpy.max of an empty array raises. *)
Definition quantize_probabilities_into_byte (p : list f64) (bits : Z) : res (list Z) :=
  do* py_assert (bits <=? 8);
  do* py_assert (1 <=? bits);
  do* (match p with [] => Err ValueError_ | _ => Ret tt end);
  do* py_assert (forallb (fun x => fleb x f64_1) p);
  do* py_assert (forallb (fun x => fleb fzero x) p);
  let steps := 2 ^ bits - 1 in
  let quantized := map (quantize1 (steps - 1)) p in
  do* py_assert (forallb (fun x => fleb x (f_of_Z (2 ^ bits - 1))) quantized);
  Ret (map (scale_byte (steps - 1)) quantized).

(** trees.py:62-69  leaf = 'argmax' | 'value' | 'probabilities' *)
Inductive leaf_kind : Type := LeafArgmax | LeafValue | LeafProbabilities.
Definition mk_pyleaf (kind : leaf_kind) (leaf_bits : Z) (row : list f64) : res pyleaf :=
  match kind with
  | LeafArgmax => let* c := np_argmax row in Ret (LClass c)
  | LeafValue => let* v := pyget row 0 in Ret (LValue v)
  | LeafProbabilities => let* bs := quantize_probabilities_into_byte row leaf_bits in Ret (LProba bs)
  end.

(** numpy.array_equal (trees.py:255); leaves of one forest are all of the same kind. *)
Fixpoint list_eqb (a b : list Z) : bool :=
  match a, b with
  | [], [] => true
  | x :: a', y :: b' => (x =? y) && list_eqb a' b'
  | _, _ => false
  end.
Definition pyleaf_eqb (a b : pyleaf) : bool :=
  match a, b with
  | LClass x, LClass y => x =? y
  | LProba x, LProba y => list_eqb x y
  | LValue x, LValue y => Beqb x y
  | _, _ => false
  end.

(** trees.py:679-739  Wrapper.__init__. *)
Inductive method_arg : Type := MInline | MLoadable | MUnknown.
Inductive dtype_arg : Type := DInt16 | DFloat | DOther.
Record wrapper : Type := mk_wrapper {
  w_classifier : bool; w_method : method_arg; w_dtype : dtype_arg; w_leaf_bits : Z;
  w_forest : forest (T:=pynum) (L:=pyleaf); w_n_features : Z; w_n_classes : Z }.

Definition choose_leaf_bits (classifier : bool) (leaf_bits : option Z) : Z :=
  match leaf_bits with
  | Some b => if b =? 1 then 0 else b
  | None => if classifier then 0 else 32
  end.
Definition choose_leaf (classifier : bool) (leaf_bits : Z) : leaf_kind :=
  if negb classifier then LeafValue
  else if (0 <? leaf_bits) && (leaf_bits <=? 8) then LeafProbabilities else LeafArgmax.

Definition sk_forest := list (sktree pynum (list f64)).

Definition wrapper_init (classifier : bool) (method : option method_arg) (dtype : option dtype_arg)
    (leaf_bits : option Z) (trees : sk_forest) (n_features n_classes : Z) : res wrapper :=
  let method := match method with None => MInline | Some m => m end in
  let dtype := match dtype with None => DInt16 | Some d => d end in
  let leaf_bits := choose_leaf_bits classifier leaf_bits in
  let leaf := choose_leaf classifier leaf_bits in
  let* f := convert_forest (PyInt 0) (mk_pyleaf leaf leaf_bits) pyleaf_eqb trees in
  let n_classes := if classifier then n_classes else 0 in
  do* (match method with MUnknown => Err ValueError_ | _ => Ret tt end);
  do* (match method, dtype with
       | MLoadable, DInt16 => Ret tt
       | MLoadable, _ => Err ValueError_
       | _, _ => Ret tt end);
  let max_features := match method with MLoadable => 127 | _ => 10000 end in
  if max_features <? n_features then Err ValueError_
  else Ret (mk_wrapper classifier method dtype leaf_bits f n_features n_classes).

(** trees.py:865-881  save(format='c') for the loadable method. *)
Definition save_loadable (w : wrapper) : res eml_trees :=
  generate_c_loadable (w_forest w) (w_n_features w) (w_n_classes w) (w_leaf_bits w).
(** ... and for the inline method with int16_t features, classifier. *)
Definition save_inline (w : wrapper) : res (inline_prog Z) :=
  generate_c_inlined_int16 (w_forest w) (w_n_classes w) (w_leaf_bits w).

(** trees.py:758-771  predict_wrapper: the float row is converted to int16_t elements of
    features[n_features]; the result of <name>_predict (trees.py:635-639) is negated if negative.
    A float outside int16_t is undefined behaviour. Writing past features[] is OutOfBounds. *)
Definition f32_to_int16 (x : f32) : res Z :=
  match x with
  | B754_nan | B754_infinity _ => Err BadCast
  | _ => let z := ftrunc x in
         if (-32768 <=? z) && (z <=? 32767) then Ret z else Err BadCast
  end.
Definition wrapper_features (n_features : Z) (values : list f32) : res (list Z) :=
  foldM (fun fs i => let* v := zget values i in let* x := f32_to_int16 v in zset fs i x)
    (repeat 0 (Z.to_nat n_features)) (zrange (zlen values)).
Definition flip_negative (out : Z) : Z := if out <? 0 then - out else out.
Definition predict_wrapper_loadable (m : eml_trees) (n_features : Z) (values : list f32) : res Z :=
  let* features := wrapper_features n_features values in
  let* out := eml_trees_predict m features (zlen values) in
  Ret (flip_negative out).

(** evaluate/trees.py:23-66 *)
Definition model_size_nodes (w : wrapper) : Z := let '(nodes, _, _) := w_forest w in zlen nodes.
Definition model_size_leaves (w : wrapper) : Z := let '(_, _, leaves) := w_forest w in zlen leaves.
Definition ceil_div8 (b : Z) : Z := - ((- b) / 8).
Definition model_size_bytes (w : wrapper) (node_size leaf_size : option Z) : Z :=
  let node_size := match node_size with None => 8 | Some s => s end in
  let leaf_size := match leaf_size with None => ceil_div8 (w_leaf_bits w) | Some s => s end in
  model_size_nodes w * node_size + model_size_leaves w * leaf_size.

(** ** CSV export (trees.py:884-909): one record per line, not the text of the numbers. *)
Inductive csv_record : Type :=
  | RFeatures (n : Z) | RClasses (n : Z) | RLeafBits (n : Z)
  | RLeaf (l : pyleaf) | RRoot (r : Z)
  | RNode (feature : Z) (value : f64) (l r : Z).
(** numpy.float64.round(6): rint(x * 1e6) / 1e6; a Python int 0 has no attribute 'round'. *)
Definition f64_1e6 : f64 := f_of_Z 1000000.
Definition np_round6 (x : f64) : f64 := fdiv (frint (fmul x f64_1e6)) f64_1e6.
Definition serialize_node (index : Z) (n : dnode pynum) : res csv_record :=
  let* l := encode_child index (d_left n) in
  let* r := encode_child index (d_right n) in
  match d_value n with
  | PyInt _ => Err AttributeError_
  | PyFloat x => Ret (RNode (d_feature n) (np_round6 x) l r)
  end.
Definition save_csv (w : wrapper) : res (list csv_record) :=
  let '(nodes, roots, leaves) := w_forest w in
  let* ns := mapM (fun '(i, n) => serialize_node i n) (enumerate nodes) in
  Ret ([RFeatures (w_n_features w); RClasses (w_n_classes w); RLeafBits (w_leaf_bits w)]
         ++ map RLeaf leaves ++ map RRoot roots ++ ns).
