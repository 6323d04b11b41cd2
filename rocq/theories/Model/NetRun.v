(** Model of net.Wrapper from the fitted network to the returned numbers: the generated code, compiling it, and
    predict and predict_proba through the compiled test program (Harness.v). *)
From Coq Require Import String ZArith List Bool.
From Flocq Require Import Core BinarySingleNaN.
From Verif.Base Require Import Res CInt Float Arith.
From Verif.Model Require Import Common Text TreesConvert TreesC Net Cgen Harness TreesRun.
Import ListNotations.
Open Scope Z_scope.
Open Scope res_scope.

(** numpy's float64, the numbers of the fitted network. Only the type of the numbers is used: the converter does
    not calculate with them. *)
Definition f64_arith : arith := {|
  num := f64; nzero := fzero; none_ := f_of_Z 1; nhalf := f_of_ZE 1 (-1); nmilli := fdiv (f_of_Z 1) (f_of_Z 1000);
  nneginf := B754_infinity true; nposinf := B754_infinity false; nnan := B754_nan;
  nadd := fadd; nsub := fsub; nmul := fmul; ndiv := fdiv; nneg := Bopp; nabs := Babs;
  nexp := fun x => x; nlog := fun x => x; ntanh := fun x => x; nltb := fltb; nleb := fleb |}.
(** A layer of the fitted network: activation name, weights, number of outputs, biases. *)
Definition fit_layer : Type := py_layer f64_arith.

Section Run.
(** The C library of the machine that runs the program. *)
Context (expf logf tanhf : f32 -> f32).
Notation A := (f32_arith expf logf tanhf).

(** net.py:170-188  the arrays of one layer as compiled: cgen.array_declare writes each number with six decimals
    (cgen.py:46-47, 66-99), the compiler reads it as float. *)
Definition const_layer (l : fit_layer) : res (py_layer A) :=
  let* biases := mapM (fun v : f64 => float_const (PyFloat v)) (py_biases f64_arith l) in
  let* weights := mapM (mapM (fun v : f64 => float_const (PyFloat v))) (py_weights f64_arith l) in
  Ret (mk_pylayer A (py_activation f64_arith l) weights (py_n_out f64_arith l) biases).
(** net.py:104-131  save(name) with its default inference=['loadable'], and compiling the result. The activation
    names are looked up while the text is written, before anything is compiled. *)
Definition save_compiled (ls : list fit_layer) : res (net A) :=
  let* _ := mapM (fun l => c_activation_function (py_activation f64_arith l)) ls in
  let* ls := mapM const_layer ls in
  c_generate_net_loadable A ls.

(** What the constructor keeps: the programs it compiled. *)
Inductive net_model : Type :=
  | NetClassifier (m : net A) (n_outputs : Z)     (* predict and predict_proba *)
  | NetRegressor (m : net A)                      (* predict gives floats *)
  | NetInline (m : net A).                        (* predict only *)
(** net.py:33-90  Wrapper.__init__. save is called without inference, so an 'inline' wrapper is also made from the
    loadable code; its function mynet_predict calls eml_net_predict (net.py:301-306). With use_fixedpoint the added
    function passes an array of eml_q16_t to mynet_predict, which takes const float *: an error with -Werror
    (common.py:66-71). NotImplementedError is RuntimeError_ here. *)
Definition net_wrapper (classifier : option string) (return_type : string) (use_fixedpoint : bool) (ls : list fit_layer)
    : res net_model :=
  let inference_type := match classifier with None => "loadable"%string | Some s => s end in
  let* last := pyget ls (-1) in
  let n_outputs := py_n_out f64_arith last in
  let n_outputs := if n_outputs =? 1 then 2 else n_outputs in
  if use_fixedpoint && negb (String.eqb inference_type "inline") then Err RuntimeError_
  else if String.eqb inference_type "loadable" && String.eqb return_type "classifier" then
    let* m := save_compiled ls in Ret (NetClassifier m n_outputs)
  else if String.eqb inference_type "loadable" && String.eqb return_type "regressor" then
    let* m := save_compiled ls in Ret (NetRegressor m)
  else if String.eqb inference_type "inline" && String.eqb return_type "classifier" then
    let* m := save_compiled ls in
    if use_fixedpoint then Err CompileError else Ret (NetInline m)
  else if String.eqb inference_type "inline" && String.eqb return_type "regressor" then Err RuntimeError_
  else Err ValueError_.

(** net.py:330-340  convert_sklearn_mlp. coefs_ is a list of matrices, each with its number of columns. *)
Definition convert_sklearn_mlp (n_layers_ : Z) (activation out_activation_ : string)
    (coefs_ : list (list (list f64) * Z)) (intercepts_ : list (list f64))
    (method : option string) (return_type : string) (use_fixedpoint : bool) : res net_model :=
  if n_layers_ <? 3 then Err ValueError_
  else
    let activations := repeat activation (length coefs_ - 1) ++ [out_activation_] in
    net_wrapper method return_type use_fixedpoint
      (map (fun '(a, (w, b)) => mk_pylayer f64_arith a (fst w) (snd w) b) (combine activations (combine coefs_ intercepts_))).
(** net.py:352-424 and the call of Wrapper in it *)
Definition convert_keras_model (layers : list (keras_layer f64_arith)) (method : option string) (return_type : string)
    (use_fixedpoint : bool) : res net_model :=
  let* ls := convert_keras f64_arith layers in
  net_wrapper method return_type use_fixedpoint ls.

(** The calls inside the test program (net.py:58-86), converted to double (common.py:98). The buffers of the static
    network keep the values of the row before; every row is run here on the buffers as compiled. That they make no
    difference is theorem C32_no_history. *)
Definition net_predict_func (m : net A) (values : list (option f32)) (length : Z) : res f64 :=
  let* x := cast_row (@Ret f32) fzero length values length in
  let* (out, _) := eml_net_predict A m x length in
  Ret (f_of_Z out).
(** The local array of eml_net_regress1 is taken as zero; its content is never used. *)
Definition net_regress_func (m : net A) (values : list (option f32)) (length : Z) : res f64 :=
  let* x := cast_row (@Ret f32) fzero length values length in
  let* (out, _) := eml_net_regress1 A (fzero : f32) m x length in
  Ret (f64_of_f32 out).
(** The error code is not looked at (common.py:80). *)
Definition net_proba_func (m : net A) (n_outputs : Z) (outputs : list f32) (values : list (option f32)) (length : Z)
    : res (list f32) :=
  let* x := cast_row (@Ret f32) fzero length values length in
  let* (_, _, out) := eml_net_predict_proba A m x length outputs n_outputs in
  Ret out.

(** net.py:95-101  Wrapper.predict *)
Definition net_predict (w : net_model) (X : list (list f64)) : res (list pynum) :=
  match w with
  | NetClassifier m _ => predict (net_predict_func m) OutInt X
  | NetRegressor m => predict (net_regress_func m) OutFloat X
  | NetInline m => predict (net_predict_func m) OutInt X
  end.
(** net.py:92-93  Wrapper.predict_proba; without a program for it a ValueError (common.py:192-193). *)
Definition net_predict_proba (w : net_model) (X : list (list f64)) : res (list (list (option f64))) :=
  match w with
  | NetClassifier m n => predict_proba (net_proba_func m n) n X
  | _ => do* check_array X; Err ValueError_
  end.
End Run.
