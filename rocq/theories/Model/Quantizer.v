(** Model of eml_quantizer.h and emlearn/preprocessing/quantizer.py. *)
From Coq Require Import ZArith List Bool.
From Flocq Require Import Core BinarySingleNaN.
From Verif.Base Require Import Res CInt Float.
From Verif.Model Require Import Common.
Import ListNotations.
Open Scope Z_scope.
Open Scope res_scope.

(** Conversion of a float to an integer type with values lo..hi: towards zero; undefined when the truncated
    value does not fit (C; numpy's astype is the same C conversion). *)
Definition cast_to {prec emax : Z} (lo hi : Z) (x : binary_float prec emax) : res Z :=
  match x with
  | B754_nan | B754_infinity _ => Err BadCast
  | _ => let z := Btrunc x in if (lo <=? z) && (z <=? hi) then Ret z else Err BadCast
  end.

(** eml_quantizer.h:25-26 *)
Definition max_value : f32 := f_of_Z 32767.
Definition min_value : f32 := f_of_Z (-32767).

(** eml_quantizer.h:14-45  eml_quantizer_check_forward_int16. [out] is the whole buffer behind the pointer;
    the result has the error code, the buffer and the two counters behind the pointers. *)
Definition eml_quantizer_check_forward_int16 (scale : f32) (values : list f32) (values_length : Z)
    (out : list Z) (out_length : Z) (underflows_out overflows_out : Z) : res (eml_error * list Z * Z * Z) :=
  if negb (out_length =? values_length) then Ret (EmlSizeMismatch, out, underflows_out, overflows_out)
  else
    let* (out, underflows, overflows) := foldM (fun '(out, underflows, overflows) i =>
        let* v := zget values i in
        let scaled := fmul v scale in
        let* (underflows, scaled) :=
          (if fltb scaled min_value then let* u := chk_int32 (underflows + 1) in Ret (u, min_value)
           else Ret (underflows, scaled)) in
        let* (overflows, scaled) :=
          (if fltb max_value scaled then let* o := chk_int32 (overflows + 1) in Ret (o, max_value)
           else Ret (overflows, scaled)) in
        let* z := cast_to (-32768) 32767 scaled in
        let* out := zset out i z in
        Ret (out, underflows, overflows)) (out, 0, 0) (zrange values_length) in
    Ret (EmlOk, out, underflows, overflows).

(** eml_quantizer.h:47-62  eml_quantizer_forward_int16 *)
Definition eml_quantizer_forward_int16 (scale : f32) (values : list f32) (values_length : Z)
    (out : list Z) (out_length : Z) : res (eml_error * list Z) :=
  let* (err, out, _, _) := eml_quantizer_check_forward_int16 scale values values_length out out_length (-1) (-1) in
  Ret (err, out).

(** eml_quantizer.h:65-79  eml_quantizer_inverse_int16 *)
Definition eml_quantizer_inverse_int16 (scale : f32) (values : list Z) (values_length : Z)
    (out : list f32) (out_length : Z) : res (eml_error * list f32) :=
  if negb (out_length =? values_length) then Ret (EmlSizeMismatch, out)
  else
    let* out := foldM (fun out i =>
        let* v := zget values i in
        zset out i (fdiv (f_of_Z v) scale)) out (zrange values_length) in
    Ret (EmlOk, out).

(** ** emlearn/preprocessing/quantizer.py, for float64 data and an integer dtype *)

(** numpy integer dtype: number of bits, signed or not. *)
Record dtype : Type := mk_dtype { dt_bits : Z; dt_signed : bool }.
(** numpy.iinfo(dtype).min, .max *)
Definition iinfo_min (d : dtype) : Z := if dt_signed d then - 2 ^ (dt_bits d - 1) else 0.
Definition iinfo_max (d : dtype) : Z := if dt_signed d then 2 ^ (dt_bits d - 1) - 1 else 2 ^ dt_bits d - 1.

(** numpy.clip(x, lo, hi) on one float64: NaN stays NaN. *)
Definition np_clip (lo hi x : f64) : f64 :=
  let y := if fltb x lo then lo else x in
  if fltb hi y then hi else y.

(** quantizer.py:30-43  _get_out_max (out_max given as an int). *)
Definition get_out_max (out_max : option Z) (d : dtype) : Z :=
  match out_max with Some m => m | None => iinfo_max d end.

(** quantizer.py:45-66  fit. [lo] and [hi] are the values of numpy.min/numpy.max, or of the two
    numpy.quantile calls, on the data (not modelled further); [max_value] is the constructor parameter.
    The division is done in float64: out_max is converted first. *)
Definition fit_scale (out_max : Z) (max_value : option f64) (lo hi : f64) : f64 :=
  let largest := match max_value with
    | Some m => m
    | None => if fltb hi (Bopp lo) then Bopp lo else hi
    end in
  fdiv (f_of_Z out_max) largest.

(** quantizer.py:48-51  numpy.min(X), numpy.max(X) of a non-empty float64 array without NaN. *)
Definition np_min (x0 : f64) (l : list f64) : f64 := fold_left (fun m x => if fltb x m then x else m) l x0.
Definition np_max (x0 : f64) (l : list f64) : f64 := fold_left (fun m x => if fltb m x then x else m) l x0.

(** quantizer.py:68-87  transform *)
Definition transform (out_max : Z) (d : dtype) (scale : f64) (X : list f64) : res (list Z) :=
  mapM (fun x =>
    let out := fmul x scale in
    let out := np_clip (Bopp (f_of_Z out_max)) (f_of_Z out_max) out in
    cast_to (iinfo_min d) (iinfo_max d) out) X.

(** quantizer.py:89-106  inverse_transform, on an integer array *)
Definition inverse_transform (out_max : Z) (scale : f64) (X : list Z) : list f64 :=
  map (fun k =>
    let out := f_of_Z k : f64 in
    let out := np_clip (Bopp (f_of_Z out_max)) (f_of_Z out_max) out in
    fdiv out scale) X.
