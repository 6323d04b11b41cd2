(** Model of eml_mixture.h and mixture.py, over an arbitrary number system [A]. *)
From Coq Require Import ZArith List Bool Reals.
From Flocq Require Import Core BinarySingleNaN.
From Verif.Base Require Import Res CInt Float Arith.
From Verif.Model Require Import Common Text.
Import ListNotations.
Open Scope Z_scope.
Open Scope res_scope.

(** eml_mixture.h:14  EML_LOG_2PI, the decimal constant 1.8378770664093453 *)
Definition EML_LOG_2PI : R := (18378770664093453 / 10000000000000000)%R.

Section Mixture.
Context (A : arith).
Notation num := (num A).
(** eml_mixture.h:220: what is assigned to out[c], given n_features, log_prob and log_dets[c]. *)
Context (log_density : Z -> num -> num -> num).

(** eml_mixture.h:27-53  eml_minmax *)
Definition eml_minmax (arr : list num) (length : Z) : res (num * num) :=
  foldM (fun '(mn, mx) i =>
      let* value := zget arr i in
      let mx := if nltb A mx value then value else mx in
      let mn := if nltb A value mn then value else mn in
      Ret (mn, mx)) (nposinf A, nneginf A) (zrange length).

(** eml_mixture.h:57-78  eml_logsumexp *)
Definition eml_logsumexp (arr : list num) (length : Z) : res num :=
  let* (_, a_max) := eml_minmax arr length in
  let* sum := foldM (fun sum i => let* v := zget arr i in Ret (nadd A sum (nexp A (nsub A v a_max)))) (nzero A) (zrange length) in
  Ret (nadd A (nlog A sum) a_max).

(** eml_mixture.h:83-88  EmlCovarianceType *)
Inductive cov_type : Type := CovFull | CovTied | CovDiagonal | CovSpherical.
(** eml_mixture.h:95-109  EmlMixtureModel; pointers are not NULL. *)
Record mixture : Type := mk_mixture {
  m_n_components : Z; m_n_features : Z; m_covariance_type : cov_type;
  m_means : list num; m_precisions : list num; m_log_dets : list num; m_log_weights : list num }.

(** eml_mixture.h:112-135  eml_mixture_precisions_length *)
Definition eml_mixture_precisions_length (m : mixture) : res Z :=
  match m_covariance_type m with
  | CovFull => let* k := chk_int32 (m_n_components m * m_n_features m) in chk_int32 (k * m_n_features m)
  | CovTied => chk_int32 (m_n_features m * m_n_features m)
  | CovDiagonal => chk_int32 (m_n_components m * m_n_features m)
  | CovSpherical => Ret (m_n_components m)
  end.

(** eml_mixture.h:160-233  eml_mixture_predict_log_proba: the returned code and *probabilities.
    [values_length] is not used by the code. *)
Definition eml_mixture_predict_log_proba (m : mixture) (values : list num) (probabilities : list num) : res (Z * list num) :=
  if negb (0 <? m_n_components m) then Ret (- eml_error_code EmlUninitialized, probabilities)
  else
    let n := m_n_features m in
    match m_covariance_type m with
    | CovFull =>
      let* out := foldM (fun out c =>
          let* means := chk_int32 (c * n) in
          let* log_prob := foldM (fun log_prob f =>
              let* precisions := chk_int32 (means * n) in
              let* (dot_x, dot_m) := foldM (fun '(dot_x, dot_m) p =>
                  let* k := chk_int32 (p * n) in
                  let* k := chk_int32 (k + f) in
                  let* v := zget values p in
                  let* q := zget (m_precisions m) (precisions + k) in
                  let* mu := zget (m_means m) (means + p) in
                  Ret (nadd A dot_x (nmul A v q), nadd A dot_m (nmul A mu q))) (nzero A, nzero A) (zrange n) in
              let y := nsub A dot_x dot_m in
              Ret (nadd A log_prob (nmul A y y))) (nzero A) (zrange n) in
          let* ld := zget (m_log_dets m) c in
          let* out := zset out c (log_density n log_prob ld) in
          let* o := zget out c in
          let* lw := zget (m_log_weights m) c in
          zset out c (nadd A o lw)) probabilities (zrange (m_n_components m)) in
      Ret (eml_error_code EmlOk, out)
    | _ => Ret (eml_error_code EmlUnsupported, probabilities)
    end.

(** eml_mixture.h:247-279  eml_mixture_score: code, *probabilities, *out_score. *)
Definition eml_mixture_score (m : mixture) (values probabilities : list num) (out_score : num) : res (Z * list num * num) :=
  if negb (0 <? m_n_components m) then Ret (- eml_error_code EmlUninitialized, probabilities, out_score)
  else
    let* (status, probabilities) := eml_mixture_predict_log_proba m values probabilities in
    if negb (status =? 0) then Ret (status, probabilities, out_score)
    else
      let* score := eml_logsumexp probabilities (m_n_components m) in
      Ret (0, probabilities, score).

(** eml_mixture.h:281-304  eml_mixture_predict_proba: code, *probabilities, *out_score, *out_resp. *)
Definition eml_mixture_predict_proba (m : mixture) (values probabilities : list num) (out_score : num) (out_resp : list num)
  : res (Z * list num * num * list num) :=
  if negb (0 <? m_n_components m) then Ret (- eml_error_code EmlUninitialized, probabilities, out_score, out_resp)
  else
    let* (status, probabilities, out_score) := eml_mixture_score m values probabilities out_score in
    if negb (status =? 0) then Ret (status, probabilities, out_score, out_resp)
    else
      let* out_resp := foldM (fun r i => let* p := zget probabilities i in zset r i (nsub A p out_score)) out_resp (zrange (m_n_components m)) in
      let* out_resp := foldM (fun r i => let* x := zget r i in zset r i (nexp A x)) out_resp (zrange (m_n_components m)) in
      Ret (0, probabilities, out_score, out_resp).

(** precisions_cholesky_ of scikit-learn, with its shape. *)
Inductive chol : Type :=
  | ChFull (l : list (list (list num)))  (* component, row, column *)
  | ChTied (l : list (list num))
  | ChDiag (l : list (list num))         (* component, feature *)
  | ChSpherical (l : list num).

(** numpy.diag of a vector; v * numpy.eye(n,n): v*1 on the diagonal, v*0 elsewhere. *)
Definition np_diag (a : list num) : list (list num) :=
  map (fun i => map (fun j => if i =? j then nth (Z.to_nat i) a (nzero A) else nzero A) (zrange (zlen a))) (zrange (zlen a)).
Definition scaled_eye (v : num) (n : Z) : list (list num) :=
  map (fun i => map (fun j => nmul A v (if i =? j then none_ A else nzero A)) (zrange n)) (zrange n).

(** mixture.py:222-271  convert_to_full(means, precisions_chol, covariance_type). numpy arrays are
    rectangular lists; the assertions on the shape. *)
Definition shape2 (l : list (list num)) (a b : Z) : bool := (zlen l =? a) && forallb (fun r => zlen r =? b) l.
Definition convert_to_full (n_components n_features : Z) (p : chol) : res (list (list (list num))) :=
  let* out :=
    match p with
    | ChFull l => Ret l
    | ChTied l => do* py_assert (shape2 l n_features n_features); Ret (map (fun _ => l) (zrange n_components))
    | ChDiag l => do* py_assert (shape2 l n_components n_features); Ret (map np_diag l)
    | ChSpherical l => do* py_assert (zlen l =? n_components); Ret (map (fun v => scaled_eye v n_features) l)
    end in
  do* py_assert ((zlen out =? n_components) && forallb (fun m => shape2 m n_features n_features) out);
  Ret out.

(** sklearn.mixture._gaussian_mixture._compute_log_det_cholesky for 'full' (not in the repository):
    the sum of the logarithms of the diagonal, for each component. *)
Definition log_det_cholesky (full : list (list (list num))) (n_features : Z) : res (list num) :=
  mapM (fun m => foldM (fun s f => let* row := pyget m f in let* x := pyget row f in Ret (nadd A s (nlog A x)))
                   (nzero A) (zrange n_features)) full.

(** mixture.py:300-327  Wrapper.__init__ and mixture.py:24-106 generate_code: the model of the generated C program.
    [log_weights] is what get_log_weights gives. Simplified: numbers are not turned into text (see MixtureRun.v). *)
Definition wrapper_model (means : list (list num)) (n_features : Z) (p : chol) (log_weights : list num) : res mixture :=
  let n_components := zlen means in
  let* full := convert_to_full n_components n_features p in
  let* log_det := log_det_cholesky full n_features in
  Ret (mk_mixture n_components n_features CovFull (List.concat means) (List.concat (List.concat full)) log_det log_weights).

(** mixture.py:132-220  build_executable: the static arrays are zero, features are argv. Exit code 255
    (return -1) when the number of arguments is wrong, -code on error: CalledProcessError. *)
Definition exec_predict_proba (m : mixture) (x : list num) : res (list num) :=
  if negb (zlen x =? m_n_features m) then Err RuntimeError_
  else
    let zeros := repeat (nzero A) (Z.to_nat (m_n_components m)) in
    let* (out, _, _, resp) := eml_mixture_predict_proba m x zeros (nzero A) zeros in
    if negb (out =? 0) then Err RuntimeError_ else Ret resp.
Definition exec_score (m : mixture) (x : list num) : res (list num * num) :=
  if negb (zlen x =? m_n_features m) then Err RuntimeError_
  else
    let zeros := repeat (nzero A) (Z.to_nat (m_n_components m)) in
    let* (out, output, score) := eml_mixture_score m x zeros (nzero A) in
    if negb (out =? 0) then Err RuntimeError_ else Ret (output, score).

(** mixture.py:348-351  Wrapper.predict for one row: the responsibilities are printed with "%.6f",
    parsed, and numpy.argmax takes the first greatest. [print6 x] is the printed number in millionths. *)
Context (print6 : num -> Z).
Definition argmaxZ (l : list Z) : Z :=
  snd (fst (fold_left (fun '(best, bi, i) v => if best <? v then (v, i, i + 1) else (best, bi, i + 1)) (tl l) (hd 0 l, 0, 1))).
Definition wrapper_predict_row (m : mixture) (x : list num) : res Z :=
  let* resp := exec_predict_proba m x in Ret (argmaxZ (map print6 resp)).
End Mixture.

(** eml_mixture.h:220  -0.5 * (n_features * EML_LOG_2PI + log_prob) + log_dets[c] in exact arithmetic. *)
Definition log_density_real (n_features : Z) (log_prob log_det : xreal) : xreal :=
  nadd real_arith (nmul real_arith (Fin (- (1 / 2))) (nadd real_arith (Fin (IZR n_features * EML_LOG_2PI)) log_prob)) log_det.
(** The same as the C program does it: in double, the result rounded to float. *)
Definition EML_LOG_2PI_double : f64 := f_of_dec false 18378770664093453 16.
Definition log_density_c (n_features : Z) (log_prob log_det : f32) : f32 :=
  f32_of_f64 (fadd (fmul (f_of_ZE (-1) (-1)) (fadd (fmul (f_of_Z n_features) EML_LOG_2PI_double) (f64_of_f32 log_prob))) (f64_of_f32 log_det)).
