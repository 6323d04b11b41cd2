(** Model of eml_fft.h and of rfft in bindings/eml_audio.cpp.

    Over an arbitrary number system [A]. size_t is 64 bits, unsigned int and int 32 bits. Buffers are
    lists; the two tables and the two buffers do not overlap. *)
From Coq Require Import ZArith List Bool.
From Flocq Require Import Core BinarySingleNaN.
From Verif.Base Require Import Res CInt Float Arith.
From Verif.Model Require Import Common.
Import ListNotations.
Open Scope Z_scope.
Open Scope res_scope.

(** What the table and the window need besides the arithmetic: conversion of integers, cosf and sinf;
    and, because these expressions are computed in double: the arithmetic of double, conversion of
    integers to double, the constant M_PI, cos, and the conversion from double. *)
Record trig (A : arith) : Type := mk_trig {
  t_of_Z : Z -> num A; t_cos : num A -> num A; t_sin : num A -> num A;
  t_D : arith; t_D_of_Z : Z -> num t_D; t_D_pi : num t_D; t_D_cos : num t_D -> num t_D; t_D_down : num t_D -> num A }.
Arguments t_of_Z {A}. Arguments t_cos {A}. Arguments t_sin {A}.
Arguments t_D {A}. Arguments t_D_of_Z {A}. Arguments t_D_pi {A}. Arguments t_D_cos {A}. Arguments t_D_down {A}.

(** double; as for float32, the libm functions are whatever the platform provides. *)
Definition double_arith (exp log tanh : f64 -> f64) : arith := {|
  num := f64; nzero := fzero; none_ := f_of_Z 1; nhalf := f_of_ZE 1 (-1);
  nmilli := fdiv (f_of_Z 1) (f_of_Z 1000);
  nneginf := B754_infinity true; nposinf := B754_infinity false; nnan := B754_nan;
  nadd := fadd; nsub := fsub; nmul := fmul; ndiv := fdiv; nneg := Bopp; nabs := Babs;
  nexp := exp; nlog := log; ntanh := tanh; nltb := fltb; nleb := fleb |}.

(** math.h  M_PI, 3.14159265358979323846 as a double: 0x1.921fb54442d18p+1 *)
Definition M_PI : f64 := f_of_ZE 7074237752028440 (-51).

(** The platform: float, double, and its cosf, sinf and cos. *)
Definition c_trig (ef lf tf : f32 -> f32) (cosf sinf : f32 -> f32) (ed ld td cosd : f64 -> f64) : trig (f32_arith ef lf tf) :=
  mk_trig (f32_arith ef lf tf) f_of_Z cosf sinf (double_arith ed ld td) f_of_Z M_PI cosd f32_of_f64.

(** eml_fft.h:38-43  reverse_bits *)
Definition reverse_bits (x n : Z) : Z :=
  fst (fold_left (fun '(result, x) _ => (Z.lor (to_uint64 (Z.shiftl result 1)) (Z.land x 1), Z.shiftr x 1))
         (zrange n) (0, x)).

Section Fft.
Context (A : arith) (T : trig A).
Notation num := (num A).

(** eml_fft.h:49-53  EmlFFT *)
Record fft : Type := mk_fft { fft_length : Z; fft_sin : list num; fft_cos : list num }.

(** The expression 2 * M_PI * i / n of eml_fft.h:70-71 and, with n = length-1, eml_vector.h:68; a double. *)
Definition turn (i n : Z) : Arith.num (t_D T) :=
  ndiv (t_D T) (nmul (t_D T) (nmul (t_D T) (t_D_of_Z T 2) (t_D_pi T)) (t_D_of_Z T i)) (t_D_of_Z T n).
(** eml_fft.h:70-71  the argument of cosf and sinf *)
Definition fft_angle (i n : Z) : num := t_D_down T (turn i n).

(** eml_fft.h:65-74  eml_fft_fill; the filled table is the second result. *)
Definition eml_fft_fill (t : fft) (n : Z) : res (eml_error * fft) :=
  if negb (to_uint64 (fft_length t) =? n / 2) then Ret (EmlSizeMismatch, t)
  else
    let* (s, c) := foldM (fun '(s, c) i =>
        let* c := zset c i (t_cos T (fft_angle i n)) in
        let* s := zset s i (t_sin T (fft_angle i n)) in
        Ret (s, c)) (fft_sin t, fft_cos t) (zrange (n / 2)) in
    Ret (EmlOk, mk_fft (fft_length t) s c).

(** eml_fft.h:92-94  levels = floor(log2(n)) *)
Fixpoint fft_levels (fuel : nat) (temp levels : Z) : res Z :=
  match fuel with
  | O => Err NoFuel
  | S fuel => if 1 <? temp then let* levels := chk_int32 (levels + 1) in fft_levels fuel (Z.shiftr temp 1) levels else Ret levels
  end.

(** eml_fft.h:96  1U << levels *)
Definition one_shl (levels : Z) : res Z :=
  if (0 <=? levels) && (levels <? 32) then Ret (to_uint32 (Z.shiftl 1 levels)) else Err BadShift.

(** eml_fft.h:100-110  Bit-reversed addressing permutation *)
Definition fft_permute (n levels : Z) (real imag : list num) : res (list num * list num) :=
  foldM (fun '(real, imag) i =>
      let j := reverse_bits i levels in
      if i <? j then
        let* temp := zget real i in
        let* rj := zget real j in
        let* real := zset real i rj in
        let* real := zset real j temp in
        let* temp := zget imag i in
        let* ij := zget imag j in
        let* imag := zset imag i ij in
        let* imag := zset imag j temp in
        Ret (real, imag)
      else Ret (real, imag))
    (real, imag) (zrange n).

(** eml_fft.h:118-124  the body of the innermost loop *)
Definition fft_butterfly (t : fft) (halfsize j k : Z) (real imag : list num) : res (list num * list num) :=
  let l := j + halfsize in
  let* rl := zget real l in
  let* ck := zget (fft_cos t) k in
  let* il := zget imag l in
  let* sk := zget (fft_sin t) k in
  let tpre := nadd A (nmul A rl ck) (nmul A il sk) in
  let tpim := nadd A (nmul A (nneg A rl) sk) (nmul A il ck) in
  let* rj := zget real j in
  let* real := zset real l (nsub A rj tpre) in
  let* ij := zget imag j in
  let* imag := zset imag l (nsub A ij tpim) in
  let* rj := zget real j in
  let* real := zset real j (nadd A rj tpre) in
  let* ij := zget imag j in
  let* imag := zset imag j (nadd A ij tpim) in
  Ret (real, imag).

(** eml_fft.h:113-127  Cooley-Tukey: the loop over size. The loop over i visits the multiples of size
    below n; the loop over j and k visits j = i + t, k = t * tablestep for t below halfsize.
    Simplified: i, j, k, l stay below 2 n, so their additions do not wrap and are written in Z. *)
Fixpoint fft_stages (fuel : nat) (t : fft) (n size : Z) (real imag : list num) : res (list num * list num) :=
  match fuel with
  | O => Err NoFuel
  | S fuel =>
    if size <=? n then
      let halfsize := size / 2 in
      let tablestep := n / size in
      let* (real, imag) := foldM (fun '(real, imag) q =>
          let i := q * size in
          foldM (fun '(real, imag) u => fft_butterfly t halfsize (i + u) (u * tablestep) real imag)
            (real, imag) (zrange halfsize)) (real, imag) (zrange ((n + size - 1) / size)) in
      if size =? n then Ret (real, imag)
      else fft_stages fuel t n (to_uint64 (size * 2)) real imag
    else Ret (real, imag)
  end.

(** eml_fft.h:88-129  eml_fft_forward; the error and the two buffers afterwards. *)
Definition eml_fft_forward (t : fft) (real imag : list num) (n : Z) : res (eml_error * list num * list num) :=
  let* levels := fft_levels 65 n 0 in
  let* p := one_shl levels in
  if negb (p =? n) then Ret (EmlSizeMismatch, real, imag)
  else if negb (to_uint64 (fft_length t) =? n / 2) then Ret (EmlSizeMismatch, real, imag)
  else
    let* (real, imag) := fft_permute n levels real imag in
    let* (real, imag) := fft_stages 65 t n 2 real imag in
    Ret (EmlOk, real, imag).

(** bindings/eml_audio.cpp:19-54  rfft(in). The result of eml_fft_fill is ignored. Vectors start out as
    zeros. *)
Definition rfft_py (inp : list num) : res (list num) :=
  let* n_fft := chk_int32 (zlen inp) in
  let n_fft_table := n_fft / 2 in
  let zeros := repeat (nzero A) (Z.to_nat n_fft_table) in
  let* (_, t) := eml_fft_fill (mk_fft n_fft_table zeros zeros) n_fft in
  let* (status, real, _) := eml_fft_forward t inp (repeat (nzero A) (Z.to_nat n_fft)) n_fft in
  match status with EmlOk => Ret real | _ => Err RuntimeError_ end.
End Fft.
