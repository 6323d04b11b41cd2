(** Model of mixture.Wrapper from the fitted GaussianMixture or BayesianGaussianMixture to the returned numbers: the
    generated program, compiling it, running it once for every row, and score_samples, predict_log_proba, predict_proba
    and predict. *)
From Coq Require Import String ZArith List Bool.
From Flocq Require Import Core BinarySingleNaN.
From Verif.Base Require Import Res CInt Float Arith.
From Verif.Model Require Import Common Text TreesC Cgen Mixture Harness NetRun DistanceRun.
Import ListNotations.
Open Scope Z_scope.
Open Scope res_scope.

(** numpy arrays of one, two and three dimensions. *)
Inductive np_array : Type := Arr1 (l : list f64) | Arr2 (l : list (list f64)) | Arr3 (l : list (list (list f64))).
(** What is taken from the estimator (mixture.py:309-327): means_, covariance_type, precisions_cholesky_, and what
    get_log_weights (mixture.py:273-297) returns for it. *)
Record fitted_gmm : Type := mk_gmm {
  gm_means : list (list f64); gm_covariance_type : string; gm_precisions_cholesky : np_array; gm_log_weights : list f64 }.

(** What the wrapper keeps (mixture.py:323-327); _covariance_type is always 'full'. *)
Record gmm_wrapper : Type := mk_wrapper {
  w_means : list (list f64); w_precisions_col : list (list (list f64)); w_log_det : list f64; w_log_weights : list f64 }.

(** mixture.py:222-262  the choice by covariance_type and the assertion on the number of dimensions; the rest of
    convert_to_full is in Mixture.v. *)
Definition typed_chol (covariance_type : string) (p : np_array) : res (chol f64_arith) :=
  if String.eqb covariance_type "full" then match p with Arr3 l => Ret (ChFull f64_arith l) | _ => Err AssertionError_ end
  else if String.eqb covariance_type "tied" then match p with Arr2 l => Ret (ChTied f64_arith l) | _ => Err AssertionError_ end
  else if String.eqb covariance_type "diag" then match p with Arr2 l => Ret (ChDiag f64_arith l) | _ => Err AssertionError_ end
  else if String.eqb covariance_type "spherical" then match p with Arr1 l => Ret (ChSpherical f64_arith l) | _ => Err AssertionError_ end
  else Err ValueError_.

(** numpy.argmax of a row: the first NaN if there is one, or the first greatest number. *)
Definition np_argmax (l : list f64) : res Z :=
  match l with
  | [] => Err ValueError_
  | x :: l' =>
      Ret (snd (fst (fold_left (fun '(best, bi, i) v =>
             if negb (is_nan best) && (is_nan v || fltb best v) then (v, i, i + 1) else (best, bi, i + 1)) l' (x, 0, 1))))
  end.

(** strtod: the words inf and nan as str() writes them, decimal numbers with or without an exponent, otherwise 0.
    Hexadecimal numbers are left out. *)
Definition strtod (t : text) : f64 :=
  if text_eqb t (txt "inf") then B754_infinity false
  else if text_eqb t (txt "-inf") then B754_infinity true
  else if text_eqb t (txt "nan") then B754_nan
  else match scan_decimal t with
       | Some (s, n, k, rest) => match take_exponent rest with Some (e, _) => f_of_sci s n k e | None => f_of_sci s n k 0 end
       | None => fzero
       end.

(** cgen.constant (cgen.py:46-47) as compiled without -Werror (common.py:239-251): a constant out of the range of float
    is infinity, with a warning; "nanf" and "inff" are no constants. *)
Definition gcc_float_literal (t : text) : res f32 :=
  match scan_decimal t with
  | Some (s, n, k, rest) => if text_eqb rest (txt "f") then Ret (f_of_dec s n k) else Err CompileError
  | None => Err CompileError
  end.
Definition gcc_float_const (v : f64) : res f32 := gcc_float_literal (fmt_fixed 6 v ++ txt "f").

Section Run.
(** str() of a float, which writes the arguments of the program (mixture.py:113). *)
Context (float_str : f64 -> text).
(** sklearn's _compute_log_det_cholesky for 'full' (not in the repository). *)
Context (log_det_fn : list (list (list f64)) -> Z -> list f64).
(** The C library. *)
Context (expf logf tanhf : f32 -> f32).
Notation A := (f32_arith expf logf tanhf).

(** mixture.py:300-327  Wrapper.__init__; classifier (the method of convert) only gets a default and is not used.
    means_ of a fitted estimator has a row. *)
Definition gmm_init (classifier : option string) (f : fitted_gmm) : res gmm_wrapper :=
  let n_components := zlen (gm_means f) in
  let* row := pyget (gm_means f) 0 in
  let n_features := zlen row in
  let* p := typed_chol (gm_covariance_type f) (gm_precisions_cholesky f) in
  let* precisions_chol := convert_to_full f64_arith n_components n_features p in
  let log_det := log_det_fn precisions_chol n_features in
  Ret (mk_wrapper (gm_means f) precisions_chol log_det (gm_log_weights f)).

(** mixture.py:24-106  generate_code and mixture.py:132-220  build_executable, compiled: the model in the program. The
    static array of means has n_components * n_features elements, asserted by array_declare (cgen.py:84-85). *)
Definition build_executable (w : gmm_wrapper) : res (mixture A) :=
  let n_components := zlen (w_means w) in
  let* row := pyget (w_means w) 0 in
  let n_features := zlen row in
  do* py_assert (n_components * n_features =? zlen (concat (w_means w)));
  let* means := mapM gcc_float_const (concat (w_means w)) in
  let* log_dets := mapM gcc_float_const (w_log_det w) in
  let* precisions := mapM gcc_float_const (concat (concat (w_precisions_col w))) in
  let* log_weights := mapM gcc_float_const (w_log_weights w) in
  Ret (mk_mixture A n_components n_features CovFull means precisions log_dets log_weights).

(** mixture.py:137-180  output_type *)
Inductive output_type : Type := OutScore | OutLogProba | OutProba.
(** mixture.py:182-208  main: the features are what strtod makes of the arguments, as float; then the numbers are
    printed with six decimals. What is printed, or the exit status: CalledProcessError, RuntimeError_ here. *)
Definition gmm_main (m : mixture A) (out : output_type) (argv : list text) : res text :=
  let features := map (fun a => f32_of_f64 (strtod a)) argv in
  match out with
  | OutScore => let* (_, score) := exec_score A log_density_c m features in Ret (fmt_fixed 6 (score : f32))
  | OutLogProba => let* (output, _) := exec_score A log_density_c m features in Ret (join_with (txt ",") (map (fmt_fixed 6) (output : list f32)))
  | OutProba => let* resp := exec_predict_proba A log_density_c m features in Ret (join_with (txt ",") (map (fmt_fixed 6) (resp : list f32)))
  end.

(** mixture.py:109-130  predict: one run of the program for every row. *)
Definition gmm_predict_one (m : mixture A) (out : output_type) (x : list f64) : res (list f64) :=
  let* o := gmm_main m out (map float_str x) in
  let lines := split_on (Z.eqb 10) o in
  let* line := pyget lines (-1) in
  mapM py_float_of_text (split_on (Z.eqb 44) line).
Definition gmm_run (w : gmm_wrapper) (out : output_type) (X : list (list f64)) : res (list (list f64)) :=
  let* m := build_executable w in
  mapM (gmm_predict_one m out) X.

(** mixture.py:330-338  Wrapper.predict_log_proba *)
Definition gmm_predict_log_proba (w : gmm_wrapper) (X : list (list f64)) : res (list (list f64)) := gmm_run w OutLogProba X.
(** mixture.py:339-346  Wrapper.predict_proba *)
Definition gmm_predict_proba (w : gmm_wrapper) (X : list (list f64)) : res (list (list f64)) := gmm_run w OutProba X.
(** mixture.py:348-351  Wrapper.predict; numpy.argmax(axis=1) needs two dimensions, which numpy.array([]) has not. *)
Definition gmm_predict (w : gmm_wrapper) (X : list (list f64)) : res (list Z) :=
  let* probabilities := gmm_predict_proba w X in
  match probabilities with [] => Err IndexError_ | _ => mapM np_argmax probabilities end.
(** mixture.py:353-362  Wrapper.score_samples: predictions[:,0] *)
Definition gmm_score_samples (w : gmm_wrapper) (X : list (list f64)) : res (list f64) :=
  let* predictions := gmm_run w OutScore X in
  match predictions with [] => Err IndexError_ | _ => mapM (fun r => pyget r 0) predictions end.
End Run.
