(** What a C compiler reads: identifiers, keywords, literals and initialiser lists. Text is the list of its
    character codes. *)
From Coq Require Import String ZArith List Reals.
From Verif.Model Require Import Text.
Import ListNotations.
Open Scope Z_scope.

Definition letter (c : Z) : Prop := c = 95 \/ 97 <= c <= 122 \/ 65 <= c <= 90.
Definition digit (c : Z) : Prop := 48 <= c <= 57.
(** A letter or underscore, then letters, underscores and digits. *)
Definition identifier (s : list Z) : Prop :=
  exists c t, s = c :: t /\ letter c /\ Forall (fun d => letter d \/ digit d) t.

(** The keywords of C89, C99, C11 and C23 (6.4.1 of the standards). *)
Definition c_keywords : list string := [
  "auto"; "break"; "case"; "char"; "const"; "continue"; "default"; "do"; "double"; "else"; "enum"; "extern";
  "float"; "for"; "goto"; "if"; "int"; "long"; "register"; "return"; "short"; "signed"; "sizeof"; "static";
  "struct"; "switch"; "typedef"; "union"; "unsigned"; "void"; "volatile"; "while";
  "inline"; "restrict"; "_Bool"; "_Complex"; "_Imaginary";
  "_Alignas"; "_Alignof"; "_Atomic"; "_Generic"; "_Noreturn"; "_Static_assert"; "_Thread_local";
  "alignas"; "alignof"; "bool"; "constexpr"; "false"; "nullptr"; "static_assert"; "thread_local"; "true";
  "typeof"; "typeof_unqual"; "_BitInt"; "_Decimal128"; "_Decimal32"; "_Decimal64" ]%string.
Definition keyword (s : list Z) : Prop := exists w, In w c_keywords /\ s = txt w.

(** The number written by decimal digits, most significant first. *)
Definition number (ds : list Z) : Z := fold_left (fun n c => 10 * n + (c - 48)) ds 0.
Definition signed (negative : bool) (t : list Z) : list Z := if negative then 45 :: t else t.
Definition sign_of (negative : bool) : Z := if negative then -1 else 1.
(** A decimal integer literal (no leading zero: that would be octal), perhaps with a minus sign. *)
Definition int_literal (t : list Z) (z : Z) : Prop :=
  exists neg ds, t = signed neg ds /\ Forall digit ds /\ (ds = [48] \/ exists d ds', ds = d :: ds' /\ d <> 48) /\
    z = sign_of neg * number ds.
(** A float literal  ddd.dddf, perhaps with a minus sign. *)
Definition float_literal (t : list Z) (r : R) : Prop :=
  exists neg ds fs, t = signed neg (ds ++ [46] ++ fs ++ [102]) /\ Forall digit ds /\ Forall digit fs /\ ds <> [] /\ fs <> [] /\
    r = (IZR (sign_of neg) * IZR (number (ds ++ fs)) / IZR (10 ^ Z.of_nat (length fs)))%R.
(** t1, t2, ..., tn *)
Inductive comma_list : list (list Z) -> list Z -> Prop :=
  | comma_none : comma_list [] []
  | comma_one t : comma_list [t] t
  | comma_more t t' ts s : comma_list (t' :: ts) s -> comma_list (t :: t' :: ts) (t ++ [44; 32] ++ s).
