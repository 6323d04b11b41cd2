(** What quantising with saturation means. *)
From Coq Require Import ZArith List Bool Reals.
From Flocq Require Import Core BinarySingleNaN.
From Verif.Base Require Import Res Float.
Import ListNotations.
Open Scope Z_scope.

Section Q.
Context {prec emax : Z}.
Notation fl := (binary_float prec emax).
(** x is below -m, above m (infinities included, NaN is neither). *)
Definition below (m : Z) (x : fl) : bool :=
  match x with
  | B754_infinity s => s
  | B754_nan => false
  | _ => Rlt_bool (B2R x) (- IZR m)
  end.
Definition above (m : Z) (x : fl) : bool :=
  match x with
  | B754_infinity s => negb s
  | B754_nan => false
  | _ => Rlt_bool (IZR m) (B2R x)
  end.
(** The integer for a scaled value x: x without its fraction, limited to [-m, m]. *)
Definition quantised (m : Z) (x : fl) : Z :=
  if below m x then - m else if above m x then m else Ztrunc (B2R x).
End Q.

Definition count {A} (p : A -> bool) (l : list A) : Z := zlen (filter p l).
