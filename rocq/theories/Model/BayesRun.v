(** Model of bayes.Wrapper from the fitted GaussianNB to the returned numbers: the generated code, compiling it, and
    predict through the compiled test program (Harness.v). *)
From Coq Require Import String ZArith List Bool.
From Flocq Require Import Core BinarySingleNaN.
From Verif.Base Require Import Res CInt Float.
From Verif.Model Require Import Common Text TreesC FixedPoint Bayes Cgen Harness TreesRun DistanceRun.
Import ListNotations.
Open Scope Z_scope.
Open Scope res_scope.

(** What is taken from the estimator (bayes.py:88-97): theta_, and var_ or the older sigma_. Also class_prior_, which
    is not read. *)
Record fitted_nb : Type := mk_nb { nb_theta : list (list f64); nb_var : list (list f64); nb_class_prior : list f64 }.

(** numpy.sqrt after numpy.seterr(all='raise') (bayes.py:8): the square root of a negative number raises. *)
Definition np_sqrt (x : f64) : res f64 :=
  let r := fsqrt x in if is_nan r && negb (is_nan x) then Err FloatingPointError_ else Ret r.

Section Run.
(** str() of a float, which formats the numbers (bayes.py:25-26). *)
Context (float_str : f64 -> text).
(** The logarithm function numpy calls for positive numbers. *)
Context (log2_fn : f64 -> f64).
(** numpy.log2: of zero (division by zero) and of negative numbers (invalid) it raises. *)
Definition np_log2 (x : f64) : res f64 :=
  match x with
  | B754_zero _ | B754_infinity true | B754_finite true _ _ _ => Err FloatingPointError_
  | _ => Ret (log2_fn x)
  end.

(** bayes.py:88-106  the table: (mean, std, log2 std) for every class and feature. theta_ of a fitted estimator has a
    row. *)
Definition nb_table (f : fitted_nb) : res (list (list (f64 * f64 * f64))) :=
  let n_classes := zlen (nb_theta f) in
  let* row := pyget (nb_theta f) 0 in
  let n_features := zlen row in
  mapM (fun class_n =>
      mapM (fun feature_n =>
          let* trow := pyget (nb_theta f) class_n in
          let* mean := pyget trow feature_n in
          let* vrow := pyget (nb_var f) class_n in
          let* variance := pyget vrow feature_n in
          let* std := np_sqrt variance in
          let* std_log2 := np_log2 std in
          Ret (mean, std, std_log2)) (zrange n_features)) (zrange n_classes).

(** bayes.py:25-26  c_tofixed, compiled: EML_Q16_FROMFLOAT (eml_fixedpoint.h:29) of a double constant in a static
    initializer. A value that does not fit int is a warning (-Woverflow), hence an error (common.py:66-71). *)
Definition c_tofixed (v : f64) : res Z :=
  let* x := c_double_constant (float_str v) in
  match EML_Q16_FROMFLOAT x with Ret z => Ret z | Err _ => Err CompileError end.

(** bayes.py:29-74  generate_c, compiled: summaries in class-major order, the number of classes and of features. *)
Definition save_nb (model : list (list (f64 * f64 * f64))) : res bayes_model :=
  let n_classes := zlen model in
  let* row := pyget model 0 in
  let n_features := zlen row in
  let* summaries := mapM (fun '(mean, std, std_log2) =>
      let* m := c_tofixed mean in
      let* s := c_tofixed std in
      let* l := c_tofixed std_log2 in
      Ret (mk_summary m s l)) (concat model) in
  Ret (mk_bayes n_classes n_features summaries).

(** bayes.py:84-119  Wrapper.__init__; NotImplementedError, a subclass of RuntimeError, is RuntimeError_ here. *)
Definition nb_init (method : option string) (f : fitted_nb) : res bayes_model :=
  let* model := nb_table f in
  let method := match method with None => "loadable"%string | Some s => s end in
  if String.eqb method "loadable" then save_nb model
  else if String.eqb method "inline" then Err RuntimeError_
  else Err ValueError_.

(** The call in the test program (bayes.py:113), as double. [junk] is what the local array of eml_bayes_predict holds
    at first. *)
Definition nb_func (junk : list Z) (m : bayes_model) (values : list (option f32)) (length : Z) : res f64 :=
  let* x := cast_row (@Ret f32) fzero length values length in
  let* c := eml_bayes_predict junk m x length in
  Ret (f_of_Z c).

(** bayes.py:122-123  Wrapper.predict *)
Definition nb_predict (junk : list Z) (m : bayes_model) (X : list (list f64)) : res (list pynum) :=
  predict (nb_func junk m) OutInt X.
End Run.
