(** What it means that numbers pass unchanged through decimal text. *)
From Coq Require Import ZArith List Reals.
From Flocq Require Import Core BinarySingleNaN.
From Verif.Base Require Import Res Float FloatOrder.
From Verif.Model Require Import TreesC Harness.
Import ListNotations.
Open Scope Z_scope.

(** w is what arrives when v is printed with k decimals and read again: d is the decimal number nearest to v
    (in units of 10^-k), and w the float nearest to it. [key w] is the number w stands for, plus or minus
    2^emax for the infinities; so numbers too large for the format arrive as infinity. *)
Definition through_decimals {prec emax : Z} (k : Z) (v : R) (w : binary_float prec emax) : Prop :=
  exists d : Z, (Rabs (v * IZR (10 ^ k) - IZR d) <= / 2)%R /\ is_nan w = false /\
    key w = clampR (bpow radix2 emax) (round radix2 (SpecFloat.fexp prec emax) ZnearestE (IZR d / IZR (10 ^ k))).

(** The callback's array holds the row: entry i is the value i of the row, printed with 8 decimals. *)
Definition holds (row : list f64) (values : list (option f32)) : Prop :=
  exists ws, Forall2 (fun v w => through_decimals 8 (B2R v) w) row ws /\ firstn (length row) values = map Some ws.

(** The Python result for a C result y: a float printed with 6 decimals, or the integer itself. *)
Definition reported (dt : out_dtype) (y : f64) (o : pynum) : Prop :=
  match dt with
  | OutFloat => exists w, o = PyFloat w /\ (is_finite y = true -> through_decimals 6 (B2R y) w)
  | OutInt => exists z, o = PyInt z /\ (forall k, is_finite y = true -> B2R y = IZR k -> Z.abs k <= 2 ^ 53 -> z = k)
  end.
