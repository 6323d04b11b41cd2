(** Model of eml_fixedpoint.h and emlearn/fixedpoint.py.

    Shifts of signed numbers are as gcc and clang define them: x << n is x * 2^n (overflow is a
    fault), x >> n rounds down. *)
From Coq Require Import ZArith List Bool.
From Flocq Require Import Core BinarySingleNaN.
From Verif.Base Require Import Res CInt Float.
Import ListNotations.
Open Scope Z_scope.
Open Scope res_scope.

(** eml_fixedpoint.h:26 *)
Definition EML_Q16_FRACT_BITS : Z := 16.
(** eml_fixedpoint.h:28  EML_Q16_FROMINT, for an int argument *)
Definition EML_Q16_FROMINT (x : Z) : res Z := chk_int32 (x * 2 ^ EML_Q16_FRACT_BITS).
(** eml_fixedpoint.h:30  EML_Q16_TOINT *)
Definition EML_Q16_TOINT (x : Z) : Z := Z.shiftr x EML_Q16_FRACT_BITS.

Section Float.
Context {prec emax : Z} {Hp : Prec_gt_0 prec} {Hm : Prec_lt_emax prec emax}.
(** (int)x of a float or double: undefined unless the truncated value fits. *)
Definition cast_int (x : binary_float prec emax) : res Z :=
  match x with
  | B754_nan | B754_infinity _ => Err BadCast
  | _ => let z := ftrunc x in
         if (-2147483648 <=? z) && (z <=? 2147483647) then Ret z else Err BadCast
  end.
(** eml_fixedpoint.h:29  EML_Q16_FROMFLOAT; the multiplication is done in the type of x. *)
Definition EML_Q16_FROMFLOAT (x : binary_float prec emax) : res Z :=
  cast_int (fmul x (f_of_Z (2 ^ EML_Q16_FRACT_BITS))).
(** eml_fixedpoint.h:31  EML_Q16_TOFLOAT (float only in the code) *)
Definition EML_Q16_TOFLOAT (x : Z) : binary_float prec emax :=
  fdiv (f_of_Z x) (f_of_Z (2 ^ EML_Q16_FRACT_BITS)).
End Float.

(** eml_fixedpoint.h:34  eml_q16_mul: operands are shifted before the multiplication. *)
Definition eml_q16_mul (x y : Z) : res Z :=
  chk_int32 (Z.shiftr x (EML_Q16_FRACT_BITS / 2) * Z.shiftr y (EML_Q16_FRACT_BITS / 2)).

(** eml_fixedpoint.h:36-46  eml_q16_div: the numerator is an int64_t; C division truncates. *)
Definition eml_q16_div (a b : Z) : res Z :=
  let* temp := chk_int64 (a * 2 ^ EML_Q16_FRACT_BITS) in
  let half := Z.quot b 2 in
  let* temp := (if ((0 <=? temp) && (0 <=? b)) || ((temp <? 0) && (b <? 0))
                then chk_int64 (temp + half) else chk_int64 (temp - half)) in
  if b =? 0 then Err DivByZero
  else Ret (to_int32 (Z.quot temp b)).

(** fixedpoint.py:34-40  from_float, one element: astype(float) * (1 << fraction_bits), then
    astype(int) to int64. A value outside int64 has no defined result in numpy. *)
Definition from_float (x : f64) (fraction_bits : Z) : res Z :=
  let y := fmul x (f_of_Z (2 ^ fraction_bits)) in
  match y with
  | B754_nan | B754_infinity _ => Err BadCast
  | _ => let z := ftrunc y in
         if (- 2 ^ 63 <=? z) && (z <? 2 ^ 63) then Ret z else Err BadCast
  end.
(** fixedpoint.py:42-48  to_float, one element *)
Definition to_float (n : Z) (fraction_bits : Z) : f64 := fdiv (f_of_Z n) (f_of_Z (2 ^ fraction_bits)).
