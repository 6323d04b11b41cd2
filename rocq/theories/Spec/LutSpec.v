(** What a C compiler reads from a text of declarations, and words and lines of a text. *)
From Coq Require Import String ZArith List Reals.
From Verif.Base Require Import Res.
From Verif.Model Require Import Text.
From Verif.Spec Require Import CgenSpec.
Import ListNotations.
Open Scope Z_scope.
Open Scope list_scope.

Definition white (c : Z) : Prop := c = 32 \/ 9 <= c <= 13.
(** The words of a text are its longest parts without white space, in order. *)
Inductive words : list Z -> list (list Z) -> Prop :=
| words_none s : Forall white s -> words s []
| words_one s w t ws : Forall white s -> w <> [] -> Forall (fun c => ~ white c) w ->
    (t = [] \/ exists c t', t = c :: t' /\ white c) -> words t ws -> words (s ++ w ++ t) (w :: ws).

(** C tokens: names and numbers are the longest runs of letters, digits and points; white space separates; every other
    character is a token (there are no operators of two characters, strings or comments in the generated declarations). *)
Definition glyph (c : Z) : bool :=
  ((48 <=? c) && (c <=? 57) || (97 <=? c) && (c <=? 122) || (65 <=? c) && (c <=? 90) || (c =? 95) || (c =? 46))%bool.
Definition space_char (c : Z) : bool := ((c =? 32) || (9 <=? c) && (c <=? 13))%bool.
Definition flush (cur : list Z) : list (list Z) := match cur with [] => [] | _ => [cur] end.
Fixpoint tokens_from (cur : list Z) (s : list Z) : list (list Z) :=
  match s with
  | [] => flush cur
  | c :: s' =>
      if space_char c then flush cur ++ tokens_from [] s'
      else if glyph c then tokens_from (cur ++ [c]) s'
      else flush cur ++ [[c]] ++ tokens_from [] s'
  end.
Definition tokens (s : list Z) : list (list Z) := tokens_from [] s.

(** A line comment at the start of the file is white space. *)
Fixpoint skip_line (s : list Z) : list Z :=
  match s with [] => [] | c :: s' => if c =? 10 then s' else skip_line s' end.
Definition skip_comment (s : list Z) : list Z := match s with 47 :: 47 :: s' => skip_line s' | _ => s end.

Definition word (s : string) : list (list Z) := [txt s].
(** The tokens of an integer and of a float literal. *)
Definition reads_int (ts : list (list Z)) (z : Z) : Prop := exists t, int_literal t z /\ ts = tokens t.
Definition reads_float (ts : list (list Z)) (r : R) : Prop := exists t, float_literal t r /\ ts = tokens t.
Fixpoint comma_join (items : list (list (list Z))) : list (list Z) :=
  match items with
  | [] => []
  | [i] => i
  | i :: rest => i ++ word "," ++ comma_join rest
  end.
(** static const type name[n] = { v1, ..., vn };   where n is the number of the values *)
Definition array_of {A} (rd : list (list Z) -> A -> Prop) (type : string) (name : list Z) (vs : list A) (ts : list (list Z)) : Prop :=
  exists size items, reads_int size (zlen vs) /\ Forall2 rd items vs /\
    ts = word "static" ++ word "const" ++ word type ++ [name] ++ word "[" ++ size ++ word "]" ++ word "=" ++
         word "{" ++ comma_join items ++ word "}" ++ word ";".
(** static const int name = v; *)
Definition int_of (name : list Z) (v : Z) (ts : list (list Z)) : Prop :=
  exists lit, reads_int lit v /\
    ts = word "static" ++ word "const" ++ word "int" ++ [name] ++ word "=" ++ lit ++ word ";".
(** A list of declarations, one after the other. *)
Inductive declarations : list (list (list Z) -> Prop) -> list (list Z) -> Prop :=
| decl_none : declarations [] []
| decl_more (d : list (list Z) -> Prop) ds ts ts' : d ts -> declarations ds ts' -> declarations (d :: ds) (ts ++ ts').
(** A float literal within half a millionth of [v]. *)
Definition near6 (ts : list (list Z)) (v : R) : Prop := exists r, reads_float ts r /\ (Rabs (r - v) <= 1 / 2000000)%R.
