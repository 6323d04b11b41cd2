(** Second-order sections. *)
From Coq Require Import ZArith Reals List Bool.
From Verif.Base Require Import Res Arith.
From Verif.Model Require Import Common Iir.
Import ListNotations.

(** Coefficients of one section, in scipy's order. *)
Record sos (T : Type) : Type := mk_sos { b0 : T; b1 : T; b2 : T; a0 : T; a1 : T; a2 : T }.
Arguments mk_sos {T}. Arguments b0 {T}. Arguments b1 {T}. Arguments b2 {T}. Arguments a0 {T}. Arguments a1 {T}. Arguments a2 {T}.
Definition sos_list {T} (s : sos T) : list T := [b0 s; b1 s; b2 s; a0 s; a1 s; a2 s].
Definition sos_map {T U} (f : T -> U) (s : sos T) : sos U := mk_sos (f (b0 s)) (f (b1 s)) (f (b2 s)) (f (a0 s)) (f (a1 s)) (f (a2 s)).

(** The signal [x] at time [n]; zero before the beginning. *)
Definition at_ (x : list R) (n : Z) : R := if (n <? 0)%Z then 0%R else nth (Z.to_nat n) x 0%R.
(** y is the output of section [s] for the input x (normalised: a0 = 1). *)
Definition section_of (s : sos R) (x y : list R) : Prop :=
  length y = length x /\
  forall n, (0 <= n < zlen x)%Z ->
    (at_ y n = b0 s * at_ x n + b1 s * at_ x (n - 1) + b2 s * at_ x (n - 2)
               - a1 s * at_ y (n - 1) - a2 s * at_ y (n - 2))%R.
(** The cascade: each section filters the output of the previous one. *)
Fixpoint cascade (ss : list (sos R)) (x y : list R) : Prop :=
  match ss with
  | [] => y = x
  | s :: r => exists z, section_of s x z /\ cascade r z y
  end.

Section Sessions.
Context (A : arith).
Open Scope Z_scope.
(** A filter over the sections [ss], its states at offset [off] of the memory. *)
Definition filter_of (ss : list (sos (num A))) (off : Z) : iir A :=
  mk_iir A (zlen ss) off (4 * zlen ss) (flat_map sos_list ss) (6 * zlen ss).
(** Feed a stream. *)
Definition feed (f : iir A) (mem : list (num A)) (xs : list (num A)) : res (list (num A) * list (num A)) :=
  foldM (fun '(ys, mem) x => bind (eml_iir_filter A f mem x) (fun '(y, mem) => Ret (ys ++ [y], mem))) ([], mem) xs.
(** Two filters in the same memory, called in any order: [true] calls the first. *)
Definition feed2 (f g : iir A) (mem : list (num A)) (xs : list (bool * num A)) : res (list (num A) * list (num A) * list (num A)) :=
  foldM (fun '(ys, zs, mem) '(w, x) =>
      if w : bool then bind (eml_iir_filter A f mem x) (fun '(y, mem) => Ret (ys ++ [y], zs, mem))
      else bind (eml_iir_filter A g mem x) (fun '(z, mem) => Ret (ys, zs ++ [z], mem))) ([], [], mem) xs.
Definition inputs_of (which : bool) (xs : list (bool * num A)) : list (num A) :=
  map snd (filter (fun '(w, _) => Bool.eqb w which) xs).
(** The states of a filter with [n] sections at offset [off] lie inside the memory. *)
Definition region_ok (mem : list (num A)) (off n : Z) : Prop := 0 <= off /\ off + 4 * n <= zlen mem.
End Sessions.
