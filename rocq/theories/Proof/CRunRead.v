(** Tactics: the tokens of a function body are the statements given. *)
From Coq Require Import String ZArith List Bool Lia.
From Flocq Require Import Core BinarySingleNaN.
From Verif.Base Require Import Res Float.
From Verif.Model Require Import Text.
From Verif.Spec Require Import CTextSpec CgenSpec CRunSpec.
From Verif.Proof Require Import CRun.
Import ListNotations.
Open Scope Z_scope.
Open Scope list_scope.

Lemma lit_zero : float_lit (txt "0.0f") = Some fzero.
Proof. transitivity (Some (f_of_dec false 0 1 : f32)); [reflexivity|f_equal; apply B2SF_inj; vm_compute; reflexivity]. Qed.
Lemma lit_one : float_lit (txt "1.0f") = Some (f_of_Z 1).
Proof. transitivity (Some (f_of_dec false 10 1 : f32)); [reflexivity|f_equal; apply B2SF_inj; vm_compute; reflexivity]. Qed.
Lemma lit_255 : float_lit (txt "255.0f") = Some (f_of_Z 255).
Proof. transitivity (Some (f_of_dec false 2550 1 : f32)); [reflexivity|f_equal; apply B2SF_inj; vm_compute; reflexivity]. Qed.

(** the tokens before the first [P c], and after it *)
Ltac till c l := lazymatch l with P c :: _ => constr:(@nil tok) | ?x :: ?r => let a := till c r in constr:(x :: a) end.
Ltac past c l := lazymatch l with P c :: ?r => r | _ :: ?r => past c r end.
Ltac init l := lazymatch l with [_] => constr:(@nil tok) | ?x :: ?r => let a := init r in constr:(x :: a) end.
(** up to the } that closes the first { *)
Ltac block d l :=
  lazymatch l with
  | P 123 :: ?r => let a := block (S d) r in constr:(P 123 :: a)
  | P 125 :: ?r => lazymatch d with S O => constr:([P 125]) | S ?d' => let a := block d' r in constr:(P 125 :: a) end
  | ?x :: ?r => let a := block d r in constr:(x :: a)
  end.
Ltac drop a l := lazymatch a with [] => l | _ :: ?a' => lazymatch l with _ :: ?l' => drop a' l' end end.
Ltac nm := first [eassumption | unfold is_name, letter; cbn; lia].
Ltac ty := first [exact (or_introl eq_refl) | exact (or_intror eq_refl)].
Ltac lit := first [reflexivity | eassumption | exact lit_zero | exact lit_one | exact lit_255].
Ltac prim :=
  lazymatch goal with
  | |- is_prim (P 40 :: ?r) ?e => let a := init r in refine (P_par a e _); ex
  | |- is_prim [P 45; W ?w] (EVal (VI ?z)) => let k := eval compute in (- z) in refine (P_neg w k _); lit
  | |- is_prim [W ?w] (EVal (VI ?z)) => refine (P_int w z _); lit
  | |- is_prim [W ?w] (EVal (VF ?x)) => refine (P_float w x _); lit
  | |- is_prim [W ?w] (EVar ?v) => refine (P_var v _); nm
  | |- is_prim (W ?w :: P 91 :: ?r) (EIdx ?v ?e) => let a := init r in refine (P_idx v a e _ _); [nm|ex]
  | |- is_prim _ (ECall ?v) => refine (P_call v _); nm
  end
with ex :=
  lazymatch goal with
  | |- is_expr (P 40 :: ?r) ?e => refine (E_prim (P 40 :: r) e _); prim
  | |- is_expr ?l (EBin ?op ?e ?g) =>
      let c := eval compute in (op_char op) in
      let a := till c l in let b := past c l in refine (E_bin a b op e g _ _); prim
  | |- is_expr ?l ?e => refine (E_prim l e _); prim
  end.
Ltac lv := lazymatch goal with
  | |- is_lval _ (LVar ?w) => refine (L_var w _); nm
  | |- is_lval (_ :: _ :: ?r) (LIdx ?w ?e) => let a := init r in refine (L_idx w a e _ _); [nm|ex]
  end.
Ltac stm :=
  lazymatch goal with
  | |- code (W ?t :: _ :: _ :: ?r) (SInt ?w ?e) => let a := init r in refine (C_int t w a e _ _ _); [ty|nm|ex]
  | |- code (_ :: _ :: _ :: ?r) (SFloat ?w ?e) => let a := init r in refine (C_float w a e _ _); [nm|ex]
  | |- code (W ?t :: _ :: _ :: W ?n :: _ :: _ :: _ :: W ?z :: _) (SInts ?w ?k) => refine (C_ints t w n k z _ _ _ _); [ty|nm|lit|lit]
  | |- code (_ :: _ :: _ :: W ?n :: _ :: _ :: _ :: W ?z :: _) (SFloats ?w ?k) => refine (C_floats w n k z _ _ _); [nm|lit|lit]
  | |- code ?l (SSet ?v ?e) => let a := till 61 l in let r := past 61 l in let b := init r in refine (C_set a v b e _ _); [lv|ex]
  | |- code ?l (SAddTo ?v ?e) => let a := till 43 l in let r := past 61 l in let b := init r in refine (C_add a v b e _ _); [lv|ex]
  | |- code (_ :: _ :: W ?t :: _ :: _ :: ?r) (SFor ?w ?e ?lim ?s) =>
      let a := till 59 r in let r1 := past 60 r in let b := till 59 r1 in let r2 := past 123 r1 in let body := init r2 in
      refine (C_for t w a e b lim body s _ _ _ _ _); [ty|nm|prim|prim|sq]
  | |- code (_ :: _ :: ?r) (SIf ?e ?s) =>
      let a := till 41 r in let r1 := past 123 r in let body := init r1 in refine (C_if a e body s _ _); [ex|sq]
  | |- code (_ :: ?r) (SReturn ?e) => let a := init r in refine (C_return a e _); ex
  end
with sq :=
  lazymatch goal with
  | |- code [] SSkip => exact C_skip
  | |- code ?l (SSeq (SFor ?w ?e ?lim ?s) ?t) => let a := block O l in let b := drop a l in refine (C_seq a b (SFor w e lim s) t _ _); [stm|sq]
  | |- code ?l (SSeq (SIf ?e ?s) ?t) => let a := block O l in let b := drop a l in refine (C_seq a b (SIf e s) t _ _); [stm|sq]
  | |- code (?a ++ ?r) (SSeq ?s ?t) => refine (C_seq a r s t _ _); [eassumption|sq]
  | |- code ?l (SSeq ?s ?t) => let a0 := till 59 l in let b := past 59 l in let a := (eval cbn [app] in (a0 ++ [P 59])) in refine (C_seq a b s t _ _); [stm|sq]
  end.
