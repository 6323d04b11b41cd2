(** IIR filters in float32: gains and error bounds. *)
From Coq Require Import ZArith Reals List Bool.
From Flocq Require Import Core BinarySingleNaN.
From Coquelicot Require Import Complex.
From Verif.Base Require Import Res Arith Float.
From Verif.Spec Require Import IirSpec RoundingSpec.
Import ListNotations.
Open Scope R_scope.

(** The recursive part of a section, u[n] = w[n] - a1 u[n-1] - a2 u[n-2], makes no signal more than [G] times larger. *)
Definition gain (s : sos R) (G : R) : Prop :=
  forall w u D, section_of (mk_sos 1 0 0 1 (a1 s) (a2 s)) w u ->
    Forall (fun v => Rabs v <= D) w -> Forall (fun v => Rabs v <= G * D) u.
Definition b_sum (s : sos R) : R := Rabs (b0 s) + Rabs (b1 s) + Rabs (b2 s).
Definition a_sum (s : sos R) : R := Rabs (a1 s) + Rabs (a2 s).
(** How far one section in float32 is off, for inputs up to [X]. *)
Definition section_err (s : sos R) (G X : R) : R :=
  13 * u24 * (G * (1 + 2 * a_sum s * G)) * (b_sum s * X + 5 * tiny32).
(** Far enough from overflow, and rounding errors do not feed themselves. *)
Definition section_fits (s : sos R) (G X : R) : Prop :=
  gain s G /\ 13 * u24 * (1 + 2 * a_sum s * G) <= 1 /\ (b_sum s * X + 5 * tiny32) * (1 + 2 * a_sum s * G) <= bpow radix2 96.
(** Sections with their gains: inputs up to [X] that are off by up to [E]. *)
Fixpoint cascade_err (l : list (sos R * R)) (X E : R) : R :=
  match l with
  | [] => E
  | (s, G) :: l => cascade_err l (G * b_sum s * X) (section_err s G (X + E) + G * b_sum s * E)
  end.
Fixpoint cascade_fits (l : list (sos R * R)) (X E : R) : Prop :=
  match l with
  | [] => True
  | (s, G) :: l => section_fits s G (X + E) /\ cascade_fits l (G * b_sum s * X) (section_err s G (X + E) + G * b_sum s * E)
  end.

(** The poles of a section: z^2 + a1 z + a2 = (z - p1) (z - p2). *)
Definition poles (s : sos R) (p1 p2 : C) : Prop := Cplus p1 p2 = RtoC (- a1 s) /\ Cmult p1 p2 = RtoC (a2 s).
(** Bounded inputs give bounded outputs. *)
Definition stable (s : sos R) : Prop := exists G, gain s G.
