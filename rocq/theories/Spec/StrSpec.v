(** What the text of a decimal floating number means. *)
From Coq Require Import ZArith List Bool Reals.
From Flocq Require Import Core BinarySingleNaN.
From Verif.Base Require Import Res Float.
Import ListNotations.
Open Scope Z_scope.

(** Digits, and the number they write. *)
Definition digit_text (l : list Z) : Prop := Forall (fun c => 48 <= c <= 57) l.
Definition number (l : list Z) : Z := fold_left (fun a c => 10 * a + (c - 48)) l 0.

(** Nothing, or e (101) and a number with or without sign (43 is +, 45 is -). *)
Inductive exponent_text : list Z -> Z -> Prop :=
| exp_none : exponent_text [] 0
| exp_bare ds : digit_text ds -> ds <> [] -> exponent_text (101 :: ds) (number ds)
| exp_plus ds : digit_text ds -> ds <> [] -> exponent_text (101 :: 43 :: ds) (number ds)
| exp_minus ds : digit_text ds -> ds <> [] -> exponent_text (101 :: 45 :: ds) (- number ds).
(** [t] is a sign or nothing, digits, a point (46) with digits or nothing, and an exponent or nothing, but with a point
    or an exponent; it means [v]. *)
Definition float_text (t : list Z) (v : R) : Prop :=
  exists (neg : bool) whole frac point ex e,
    t = (if neg then [45] else []) ++ whole ++ point ++ ex /\
    digit_text whole /\ whole <> [] /\ digit_text frac /\ exponent_text ex e /\
    (point = 46 :: frac \/ (point = [] /\ frac = [] /\ ex <> [])) /\
    v = ((if neg then -1 else 1) * IZR (number (whole ++ frac)) * powerRZ 10 (e - zlen frac))%R.

(** str() of a float: such a text, and the float64 number nearest to what it means is the number again. *)
Definition str_reads_back (float_str : f64 -> list Z) : Prop :=
  forall x, is_finite x = true ->
    exists v, float_text (float_str x) v /\ round radix2 (FLT_exp (-1074) 53) ZnearestE v = B2R x.
