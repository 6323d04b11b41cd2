(** Number systems. Numeric C kernels are written once over [arith] and then used with float32
    (rounded), or with the real numbers (exact arithmetic). *)
From Coq Require Import ZArith Reals Bool List.
From Flocq Require Import Core BinarySingleNaN.
From Verif.Base Require Import Res Float.
Import ListNotations.

Record arith : Type := mk_arith {
  num : Type;
  nzero : num; none_ : num; nhalf : num; nmilli : num;  (* 0.0f 1.0f 0.5f 0.001f *)
  nneginf : num; nposinf : num; nnan : num;             (* -INFINITY INFINITY NAN *)
  nadd : num -> num -> num; nsub : num -> num -> num;
  nmul : num -> num -> num; ndiv : num -> num -> num;
  nneg : num -> num; nabs : num -> num;
  nexp : num -> num; nlog : num -> num; ntanh : num -> num;   (* expf logf tanhf *)
  nltb : num -> num -> bool; nleb : num -> num -> bool }.

(** float32; the libm functions are whatever the platform provides. *)
Definition f32_arith (expf logf tanhf : f32 -> f32) : arith := {|
  num := f32; nzero := fzero; none_ := f_of_Z 1; nhalf := f_of_ZE 1 (-1);
  nmilli := fdiv (f_of_Z 1) (f_of_Z 1000);
  nneginf := B754_infinity true; nposinf := B754_infinity false; nnan := B754_nan;
  nadd := fadd; nsub := fsub; nmul := fmul; ndiv := fdiv; nneg := Bopp; nabs := Babs;
  nexp := expf; nlog := logf; ntanh := tanhf; nltb := fltb; nleb := fleb |}.

(** Exact arithmetic: real numbers with the two infinities and "not a number". *)
Inductive xreal : Type := Fin (r : R) | NegInf | PosInf | NaN.
Definition lift1 (f : R -> R) (x : xreal) : xreal := match x with Fin a => Fin (f a) | _ => NaN end.
Definition lift2 (f : R -> R -> R) (x y : xreal) : xreal :=
  match x, y with Fin a, Fin b => Fin (f a b) | _, _ => NaN end.
Definition xltb (x y : xreal) : bool :=
  match x, y with
  | Fin a, Fin b => if Rlt_dec a b then true else false
  | NegInf, Fin _ | NegInf, PosInf | Fin _, PosInf => true
  | _, _ => false
  end.
Definition xleb (x y : xreal) : bool :=
  match x, y with
  | Fin a, Fin b => if Rle_dec a b then true else false
  | NegInf, (NegInf | Fin _ | PosInf) | Fin _, PosInf | PosInf, PosInf => true
  | _, _ => false
  end.
Definition real_arith : arith := {|
  num := xreal; nzero := Fin 0; none_ := Fin 1; nhalf := Fin (1 / 2); nmilli := Fin (1 / 1000);
  nneginf := NegInf; nposinf := PosInf; nnan := NaN;
  nadd := lift2 Rplus; nsub := lift2 Rminus; nmul := lift2 Rmult;
  ndiv := lift2 Rdiv; nneg := lift1 Ropp; nabs := lift1 Rabs;
  nexp := lift1 exp; nlog := lift1 ln; ntanh := lift1 tanh; nltb := xltb; nleb := xleb |}.
