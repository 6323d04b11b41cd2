(** Model of distance.Wrapper from the fitted EllipticEnvelope to the returned numbers: the generated code, compiling
    it, and mahalanobis, score_samples and predict through the compiled test program (Harness.v). *)
From Coq Require Import String ZArith List Bool.
From Flocq Require Import Core BinarySingleNaN.
From Verif.Base Require Import Res CInt Float Arith.
From Verif.Model Require Import Common Text TreesConvert TreesC Cgen Distance Harness TreesRun.
Import ListNotations.
Open Scope Z_scope.
Open Scope res_scope.

(** ** numpy's float64 operations after numpy.seterr(all='raise'), which importing emlearn executes (bayes.py:8,
    imported by convert.py:10): an overflow, an invalid operation or an inexact result below 2^-1022 raises
    FloatingPointError. *)
Definition np_invalid (a b r : f64) : bool := is_nan r && negb (is_nan a) && negb (is_nan b).
Definition np_overflow (a b r : f64) : bool :=
  is_finite a && is_finite b && match r with B754_infinity _ => true | _ => false end.
Definition np_exact_mul (a b r : f64) : bool :=
  match a, b with
  | B754_finite _ ma ea _, B754_finite _ mb eb _ =>
      match r with
      | B754_finite _ mr er _ =>
          let lo := Z.min (ea + eb) er in
          Zpos ma * Zpos mb * 2 ^ (ea + eb - lo) =? Zpos mr * 2 ^ (er - lo)
      | _ => false
      end
  | _, _ => true
  end.
Definition np_underflow (a b r : f64) : bool :=
  fltb (Babs r) (f_of_ZE 1 (-1022)) && negb (np_exact_mul a b r).
Definition np_add (a b : f64) : res f64 :=
  let r := fadd a b in if np_invalid a b r || np_overflow a b r then Err FloatingPointError_ else Ret r.
Definition np_sub (a b : f64) : res f64 :=
  let r := fsub a b in if np_invalid a b r || np_overflow a b r then Err FloatingPointError_ else Ret r.
Definition np_mul (a b : f64) : res f64 :=
  let r := fmul a b in
  if np_invalid a b r || np_overflow a b r || np_underflow a b r then Err FloatingPointError_ else Ret r.

(** distance.py:15-41  squared_mahalanobis_distance on float64 numbers *)
Definition np_squared_mahalanobis_distance (x1 x2 : list f64) (precision : list (list f64)) : res f64 :=
  let size := zlen x1 in
  do* py_assert (zlen x1 =? zlen x2);
  do* py_assert (forallb (fun r => zlen precision =? zlen r) precision);
  do* py_assert (size =? zlen precision);
  foldM (fun distance i =>
      let* accumulate := foldM (fun acc j =>
          let* row := pyget precision i in
          let* p := pyget row j in
          let* a := pyget x1 j in
          let* b := pyget x2 j in
          let* d := np_sub a b in
          let* pd := np_mul p d in
          np_add acc pd) fzero (zrange size) in
      let* a := pyget x1 i in
      let* b := pyget x2 i in
      let* d := np_sub a b in
      let* ad := np_mul accumulate d in
      np_add distance ad) fzero (zrange size).

(** ** The generated code *)
(** What a C compiler makes of a floating constant with an optional exponent part and a suffix (f: float, none: double;
    C99 6.4.4.2: a decimal point or an exponent is required), a sign before it included. Out of range, or no constant at
    all ("nanf"): an error, with -Werror. *)
Definition take_exponent (t : text) : option (Z * text) :=
  match t with
  | c :: t' =>
      if (c =? 101) || (c =? 69) then
        let '(s, t') := take_sign t' in
        let '(n, len, rest) := take_digits 0 0 t' in
        if len =? 0 then None else Some ((if s : bool then - n else n), rest)
      else Some (0, t)
  | [] => Some (0, [])
  end.
(** The number n / 10^k * 10^e. *)
Definition f_of_sci {prec emax} {Hp : Prec_gt_0 prec} {Hm : Prec_lt_emax prec emax} (s : bool) (n k e : Z) : binary_float prec emax :=
  if k <=? e then f_of_dec s (n * 10 ^ (e - k)) 0 else f_of_dec s n (k - e).
Definition c_constant {prec emax} {Hp : Prec_gt_0 prec} {Hm : Prec_lt_emax prec emax} (suffix t : text) : res (binary_float prec emax) :=
  match scan_decimal t with
  | Some (s, n, k, rest) =>
      match take_exponent rest with
      | Some (e, rest') =>
          if text_eqb rest' suffix && (existsb (Z.eqb 46) t || negb (text_eqb rest rest')) then
            let x := f_of_sci s n k e in if is_finite x then Ret x else Err CompileError
          else Err CompileError
      | None => Err CompileError
      end
  | None => Err CompileError
  end.
Definition c_float_constant (t : text) : res f32 := c_constant (txt "f") t.
Definition c_double_constant (t : text) : res f64 := c_constant [] t.

(** What is taken from the estimator (distance.py:98-101): get_precision(), location_, offset_. *)
Record fitted_envelope : Type := mk_fitted { fe_location : list f64; fe_precision : list (list f64); fe_offset : f64 }.

Section Run.
(** str() of a float, which formats the offset (distance.py:77). *)
Context (float_str : f64 -> text).
(** The C library; no function of it is used. *)
Context (expf logf tanhf : f32 -> f32).
Notation A := (f32_arith expf logf tanhf).

(** distance.py:43-92  generate_code, compiled: cgen.array_declare (cgen.py:66-99) writes means and precisions with six
    decimals and asserts the number of values; the offset is written with str() and the suffix f. *)
Definition save_envelope (f : fitted_envelope) : res (envelope A) :=
  let n_features := zlen (fe_location f) in
  do* py_assert (zlen (concat (fe_precision f)) =? n_features * n_features);
  let* means := mapM (fun v : f64 => float_const (PyFloat v)) (fe_location f) in
  let* precisions := mapM (fun v : f64 => float_const (PyFloat v)) (concat (fe_precision f)) in
  let* decision_boundary := c_float_constant (float_str (fe_offset f) ++ txt "f") in
  Ret (mk_envelope A n_features decision_boundary means precisions).

(** distance.py:95-110  Wrapper.__init__; convert() passes its own default None (convert.py:52, 72). *)
Definition elliptic_wrapper (classifier : option string) (f : fitted_envelope) : res (envelope A) :=
  match classifier with
  | Some "inline"%string => save_envelope f
  | _ => Err ValueError_
  end.

(** The call in the test program (distance.py:105), as double. *)
Definition elliptic_func (e : envelope A) (values : list (option f32)) (length : Z) : res f64 :=
  let* x := cast_row (@Ret f32) fzero length values length in
  let* d := generated_predict A e x length in
  Ret (f64_of_f32 d).
Definition py_floats (out : list pynum) : list f64 := map (fun v => match v with PyFloat x => x | PyInt z => f_of_Z z end) out.

(** distance.py:112-118  Wrapper.mahalanobis *)
Definition elliptic_mahalanobis (f : fitted_envelope) (e : envelope A) (X : list (list f64)) : res (list f64) :=
  let* _ := mapM (fun x => np_squared_mahalanobis_distance x (fe_location f) (fe_precision f)) X in
  let* out := predict (elliptic_func e) OutFloat X in
  Ret (py_floats out).
(** distance.py:120-122  Wrapper.score_samples *)
Definition elliptic_score_samples (f : fitted_envelope) (e : envelope A) (X : list (list f64)) : res (list f64) :=
  let* d := elliptic_mahalanobis f e X in Ret (map (@Bopp 53 1024) d).
(** distance.py:124-133  Wrapper.predict *)
Definition elliptic_predict (f : fitted_envelope) (e : envelope A) (X : list (list f64)) : res (list Z) :=
  let* ds := elliptic_mahalanobis f e X in
  mapM (fun d => let* dd := np_sub (Bopp d) (fe_offset f) in Ret (if fltb fzero dd then 1 else -1)) ds.
End Run.
