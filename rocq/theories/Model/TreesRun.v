(** Model of trees.Wrapper.predict and predict_proba from the converted model to the returned numbers: the
    generated code (loadable or inline; int16_t or float features; classifier or regressor), the generated
    predict_wrapper, predict_proba_wrapper and regress_wrapper, run by the compiled test program (Harness.v). *)
From Coq Require Import String ZArith List Bool.
From Flocq Require Import Core BinarySingleNaN.
From Verif.Base Require Import Res CInt Float.
From Verif.Model Require Import Common Text TreesConvert TreesC TreesInline TreesWrapper Cgen Harness.
Import ListNotations.
Open Scope Z_scope.
Open Scope res_scope.

(** The value the C compiler gives to a float literal as cgen.constant writes it (cgen.py:46-47). A literal out
    of the range of float is a warning, hence an error with -Werror (common.py:66-71); so is a text that is no
    literal, such as "nanf". *)
Definition c_float_literal (t : text) : res f32 :=
  match scan_decimal t with
  | Some (s, n, k, rest) =>
      if text_eqb rest (txt "f") then
        let x := f_of_dec s n k in if is_finite x then Ret x else Err CompileError
      else Err CompileError
  | None => Err CompileError
  end.
(** cgen.constant(value, dtype='float') (trees.py:372, 380) as compiled. *)
Definition float_const (v : pynum) : res f32 :=
  let* t := constant (fun _ => []) v (txt "float") in c_float_literal t.

(** trees.py:387-391  the leaf of an inline regressor: the value itself. *)
Definition value_leaf_const (leaves : list pyleaf) (leaf_idx : Z) : res f32 :=
  let* l := pyget leaves leaf_idx in
  match l with
  | LValue x => float_const (PyFloat x)
  | LClass c => float_const (PyInt c)
  | LProba _ => Err TypeError_
  end.
(** trees.py:350-578, regressor case: the tree functions. leaves_to_bytelist (trees.py:364) runs although the
    table is not used. *)
Definition generate_c_inlined_regress {K} (const : pynum -> res K) (f : forest (T:=pynum) (L:=pyleaf)) (leaf_bits : Z)
    : res (list (itree K f32)) :=
  let '(nodes, roots, leaves) := f in
  let* _ := leaves_table leaves leaf_bits in
  mapM (c_node const (value_leaf_const leaves) (S (length nodes)) nodes) roots.
(** trees.py:421-438  avg += tree(...); return avg/{n_trees} *)
Definition inline_regress {K X} (lt : X -> K -> bool) (p : list (itree K f32)) (features : list X) : res f32 :=
  let* avg := foldM (fun avg t => let* y := run_tree lt features t in Ret (fadd avg y)) fzero p in
  Ret (fdiv avg (f_of_Z (zlen p))).

(** gcc -Wextra (-Wtype-limits) warns, and -Werror refuses, when features[f] < constant is the same for every
    int16_t (common.py:16-25, 66-71). *)
Definition int16_test_ok (k : Z) : bool := (-32767 <=? k) && (k <=? 32767).
Fixpoint tests_ok {K R} (ok : K -> bool) (t : itree K R) : bool :=
  match t with IReturn _ => true | IIf _ v l r => ok v && tests_ok ok l && tests_ok ok r end.
Definition compiles {K R} (ok : K -> bool) (ts : list (itree K R)) : res unit :=
  if forallb (tests_ok ok) ts then Ret tt else Err CompileError.

(** trees.py:858-881 save() and compiling its result. Feature types other than int16_t and float are not
    modelled. Loadable tables that do not fit the C fields are cut as in C (gcc -Werror would refuse them). *)
Inductive tree_code : Type :=
  | CodeLoadable (m : eml_trees)
  | CodeInt16 (p : inline_prog Z)
  | CodeFloat (p : inline_prog f32)
  | CodeRegInt16 (p : list (itree Z f32))
  | CodeRegFloat (p : list (itree f32 f32)).
Definition save_code (w : wrapper) : res tree_code :=
  match w_method w, w_dtype w with
  | MLoadable, _ => let* m := save_loadable w in Ret (CodeLoadable m)
  | MInline, DInt16 =>
      if w_classifier w then
        let* p := save_inline w in do* compiles int16_test_ok (ip_trees p); Ret (CodeInt16 p)
      else
        let* p := generate_c_inlined_regress py_int (w_forest w) (w_leaf_bits w) in
        do* compiles int16_test_ok p; Ret (CodeRegInt16 p)
  | MInline, DFloat =>
      if w_classifier w then
        let* p := generate_c_inlined float_const (w_forest w) (w_n_classes w) (w_leaf_bits w) in Ret (CodeFloat p)
      else
        let* p := generate_c_inlined_regress float_const (w_forest w) (w_leaf_bits w) in Ret (CodeRegFloat p)
  | _, _ => Err RuntimeError_
  end.

(** trees.py:763-766  features[i] = (dtype)values[i] for i < length; features has n_features elements, not
    initialised (filled with x0 here). *)
Definition value_at (values : list (option f32)) (i : Z) : res f32 :=
  let* o := zget values i in match o with Some v => Ret v | None => Err Uninitialised end.
Definition cast_row {X} (cast : f32 -> res X) (x0 : X) (n_features : Z) (values : list (option f32)) (length : Z) : res (list X) :=
  foldM (fun fs i => let* v := value_at values i in let* x := cast v in zset fs i x)
    (repeat x0 (Z.to_nat n_features)) (zrange length).
(** The inline code, eml_trees_predict_proba and eml_trees_regress do not look at features_length: a short row would use elements never assigned. (Such an
    element may not be needed on the path taken; the model refuses in any case.) *)
Definition full_row {X} (cast : f32 -> res X) (x0 : X) (n_features : Z) (values : list (option f32)) (length : Z) : res (list X) :=
  let* fs := cast_row cast x0 n_features values length in
  if length <? n_features then Err Uninitialised else Ret fs.

(** trees.py:635-639, 440-463, 524-549  <name>_predict *)
Definition code_predict (c : tree_code) (n_features : Z) (values : list (option f32)) (length : Z) : res Z :=
  match c with
  | CodeLoadable m =>
      let* fs := cast_row f32_to_int16 0 n_features values length in eml_trees_predict m fs length
  | CodeInt16 p => let* fs := full_row f32_to_int16 0 n_features values length in inline_predict_int16 p fs
  | CodeFloat p => let* fs := full_row (@Ret f32) fzero n_features values length in inline_predict fltb p fs
  | _ => Err CompileError
  end.
(** trees.py:648-654, 466-521  <name>_predict_proba; its error code is not used (common.py:80). *)
Definition code_predict_proba (c : tree_code) (n_features n_classes : Z) (outputs : list f32)
    (values : list (option f32)) (length : Z) : res (list f32) :=
  match c with
  | CodeLoadable m =>
      let* fs := full_row f32_to_int16 0 n_features values length in
      let* (_, o) := eml_trees_predict_proba m fs outputs n_classes in Ret o
  | CodeInt16 p =>
      let* fs := full_row f32_to_int16 0 n_features values length in
      let* (_, o) := inline_predict_proba_int16 p fs outputs n_classes in Ret o
  | CodeFloat p =>
      let* fs := full_row (@Ret f32) fzero n_features values length in
      let* (_, o) := inline_predict_proba fltb p fs outputs n_classes in Ret o
  | _ => Err CompileError
  end.
(** trees.py:622-628, 421-438  <name>_predict of a regressor *)
Definition code_regress (c : tree_code) (n_features : Z) (values : list (option f32)) (length : Z) : res f32 :=
  match c with
  | CodeLoadable m => let* fs := full_row f32_to_int16 0 n_features values length in eml_trees_regress1 m fs
  | CodeRegInt16 p => let* fs := full_row f32_to_int16 0 n_features values length in inline_regress Z.ltb p fs
  | CodeRegFloat p => let* fs := full_row (@Ret f32) fzero n_features values length in inline_regress fltb p fs
  | _ => Err CompileError
  end.

(** trees.py:740-835  predict: build the test program and run it. The result of predict_wrapper
    (trees.py:758-771) and of regress_wrapper (trees.py:789-799) is converted to double (common.py:98). *)
Definition wrapper_predict (w : wrapper) (X : list (list f64)) : res (list pynum) :=
  let* c := save_code w in
  if w_classifier w then
    predict (fun values length =>
        let* out := code_predict c (w_n_features w) values length in Ret (f_of_Z (flip_negative out))) OutInt X
  else
    predict (fun values length =>
        let* out := code_regress c (w_n_features w) values length in Ret (f64_of_f32 out)) OutFloat X.
(** trees.py:837-844  predict_proba *)
Definition wrapper_predict_proba (w : wrapper) (X : list (list f64)) : res (list (list (option f64))) :=
  let* c := save_code w in
  if negb (w_classifier w) then Err ValueError_
  else predict_proba (code_predict_proba c (w_n_features w) (w_n_classes w)) (w_n_classes w) X.
