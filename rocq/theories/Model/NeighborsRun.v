(** Model of neighbors.Wrapper from the fitted estimator to the returned numbers: generated code, compiling it, and
    predict through the compiled test program (Harness.v). *)
From Coq Require Import String ZArith List Bool.
From Flocq Require Import Core BinarySingleNaN.
From Verif.Base Require Import Res CInt Float.
From Verif.Model Require Import Common Text TreesConvert TreesC TreesWrapper Neighbors Cgen Harness TreesRun.
Import ListNotations.
Open Scope Z_scope.
Open Scope res_scope.

(** neighbors.py:153-154  declare_array: each value is written as int(val) (cgen.py:48-49). A constant that does not
    fit int16_t is a warning (-Woverflow), hence an error with -Werror (common.py:66-71). *)
Definition int16_const (v : pynum) : res Z :=
  let* z := py_int v in
  if (-32768 <=? z) && (z <=? 32767) then Ret z else Err CompileError.
(** A member of the model structure given as an integer: the same rule. *)
Definition member_const (lo hi z : Z) : res Z := if (lo <=? z) && (z <=? hi) then Ret z else Err CompileError.

(** neighbors.py:134-175  c_generate_neighbors as compiled. [data] is estimator._fit_X, [labels] is estimator._y.
    A matrix without rows or columns cannot be fitted. *)
Definition c_generate_neighbors (data : list (list pynum)) (labels : list pynum) (n_neighbors : Z) : res neighbors_model :=
  let n_items := zlen data in
  let* n_features := match data with row :: _ => Ret (zlen row) | [] => Err ValueError_ end in
  let max_items := n_items in
  let* data := mapM int16_const (concat data) in
  let* labels := mapM int16_const labels in
  let* n_features := member_const 0 65535 n_features in
  let* n_items := member_const (-32768) 32767 n_items in
  let* max_items := member_const (-32768) 32767 max_items in
  let* k := member_const (-32768) 32767 n_neighbors in
  Ret (mk_neighbors n_features n_items max_items data labels k).

(** neighbors.py:62-84  predict_func, converted to double by the test program (common.py:98). [distances] is the
    content of the static array distance_array when the function is called. *)
Definition knn_predict_func (m : neighbors_model) (distances : list dist_item) (values : list (option f32)) (length : Z)
    : res f64 :=
  let* features := cast_row f32_to_int16 0 (nm_n_features m) values length in
  let* (err, _, out) := eml_neighbors_predict m features length distances (nm_n_items m) (-1) in
  match err with
  | EmlOk => Ret (f_of_Z out)
  | e => Ret (f_of_Z (- eml_error_code e))
  end.

(** neighbors.py:19-36  check_params_supported; a warning is given for other algorithms. *)
Definition check_params_supported (metric weights : string) : res unit :=
  if negb (String.eqb metric "euclidean") then Err ValueError_
  else if negb (String.eqb weights "uniform") then Err ValueError_
  else Ret tt.

(** neighbors.py:38-88  Wrapper.__init__: the model that was compiled. *)
Definition knn_init (metric weights : string) (inference : option string) (data : list (list pynum)) (labels : list pynum)
    (n_neighbors : Z) : res neighbors_model :=
  do* check_params_supported metric weights;
  let inference := match inference with None => "loadable"%string | Some s => s end in
  if String.eqb inference "loadable" then c_generate_neighbors data labels n_neighbors
  else Err ValueError_.

(** neighbors.py:93-94  Wrapper.predict. The static array distance_array (neighbors.py:60-61) is zero at first, and
    keeps the content left by the row before; every row is run here on zeros. That the content makes no difference is
    theorem C80_no_history. *)
Definition knn_predict (m : neighbors_model) (X : list (list f64)) : res (list pynum) :=
  predict (knn_predict_func m (repeat (mk_dist 0 0) (Z.to_nat (nm_n_items m)))) OutInt X.
