(** The C text written by save() of a neural network (net.py:131-190, 249-328). Text is the list of its character codes. *)
From Coq Require Import String ZArith List Bool.
From Verif.Base Require Import Res CInt Float Arith.
From Verif.Model Require Import Common Text Cgen TreesConvert Net NetRun SaveText.
Import ListNotations.
Open Scope Z_scope.
Open Scope list_scope.
Open Scope res_scope.

(** net.py:156-158, 263  f'{prefix}_layer_{layer_no}_{variable}' *)
Definition layer_name (prefix : text) (layer_no : Z) (variable : text) : text :=
  prefix ++ txt "_layer_" ++ fmt_int layer_no ++ txt "_" ++ variable.
(** net.py:131-134, 163-188  c_generate_layer_data, one layer, without constants and fixed point: the arrays biases and
    weights. The weights are a matrix of py_n_out columns, flattened row by row. *)
Definition layer_arrays (prefix : text) (layer_no : Z) (l : fit_layer) : res (list text) :=
  let biases := py_biases f64_arith l in
  let* biases_arr := array_declare_fixedpoint no_str (layer_name prefix layer_no (txt "biases")) None (Some (zlen biases))
    (txt "float") (txt "static const") biases [] [] in
  let weight_values := concat (py_weights f64_arith l) in
  let* weights_arr := array_declare_fixedpoint no_str (layer_name prefix layer_no (txt "weights")) None
    (Some (py_n_in f64_arith l * py_n_out f64_arith l)) (txt "float") (txt "static const") weight_values [] [] in
  Ret [biases_arr; weights_arr].
(** net.py:254-256  init_layer, and the newline of net.py:287 *)
Definition layer_row (prefix : text) (layer_no : Z) (l : fit_layer) : res text :=
  let* (activation_func, _) := c_activation_function (py_activation f64_arith l) in
  Ret ([10] ++ struct_init [fmt_int (py_n_out f64_arith l); fmt_int (py_n_in f64_arith l);
    layer_name prefix layer_no (txt "weights"); layer_name prefix layer_no (txt "biases"); txt activation_func]).
(** cgen.py:73-100  array_declare of texts, of a type that is not float and has no int in its name (cgen.py:42-54: each
    value is written as it is) *)
Definition array_declare_texts (name : text) (size : Z) (dtype modifiers : text) (values : list text) : res text :=
  do* py_assert (size =? zlen values);
  Ret (modifiers ++ txt " " ++ dtype ++ txt " " ++ name ++ txt "[" ++ fmt_int size ++ txt "]" ++
       txt " = { " ++ join_with (txt ", ") values ++ txt " }" ++ txt ";").
(** net.py:249-252  init_net *)
Definition init_net (name : text) (n_layers : Z) (layers_name buf1_name buf2_name : text) (buf_length : Z) : text :=
  txt "static EmlNet " ++ name ++ txt " = " ++ struct_init [fmt_int n_layers; layers_name; buf1_name; buf2_name; fmt_int buf_length] ++ txt ";".
(** net.py:299-305 *)
Definition net_predict_function (name : text) : text :=
  txt "
    int32_t
    " ++ name ++ txt "_predict(const float *features, int32_t n_features)
    {
        return eml_net_predict(&" ++ name ++ txt ", features, n_features);
    }
    ".
(** net.py:307-313 *)
Definition net_regress_function (name : text) : text :=
  txt "
    int32_t
    " ++ name ++ txt "_regress(const float *features, int32_t n_features, float *out, int32_t out_length)
    {
        return eml_net_regress(&" ++ name ++ txt ", features, n_features, out, out_length);
    }
    ".
(** net.py:315-321 *)
Definition net_regress1_function (name : text) : text :=
  txt "
    float
    " ++ name ++ txt "_regress1(const float *features, int32_t n_features)
    {
        return eml_net_regress1(&" ++ name ++ txt ", features, n_features);
    }
    ".
(** net.py:244-326  c_generate_net_loadable: the text *)
Definition net_text (ls : list fit_layer) (prefix : text) : res text :=
  do* assert_valid_identifier prefix;
  let* buffer_size := buffer_size f64_arith ls in
  let n_layers := zlen ls in
  let layers_name := prefix ++ txt "_layers" in
  let buf1_name := prefix ++ txt "_buf1" in
  let buf2_name := prefix ++ txt "_buf2" in
  let* layer_lines := mapM (fun '(i, l) => layer_arrays prefix i l) (enumerate ls) in
  let* layers := mapM (fun '(i, l) => layer_row prefix i l) (enumerate ls) in
  let* buf1 := array_declare no_str buf1_name (Some buffer_size) (txt "float") (txt "static") None [] [] in
  let* buf2 := array_declare no_str buf2_name (Some buffer_size) (txt "float") (txt "static") None [] [] in
  let* layers_arr := array_declare_texts layers_name n_layers (txt "EmlNetLayer") (txt "static const") layers in
  let net := init_net prefix n_layers layers_name buf1_name buf2_name buffer_size in
  Ret (join_with [10] ([txt "#include <eml_net.h>"] ++ concat layer_lines ++ [buf1; buf2; layers_arr; net] ++
    [net_predict_function prefix; net_regress_function prefix; net_regress1_function prefix])).
