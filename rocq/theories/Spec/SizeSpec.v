(** What `size -A` of GNU binutils prints, independent of the model.

    <file>  :
    section          size      addr
    .text            1234         0
    ...
    Total            5678
    (blank lines)                                                                                *)
From Coq Require Import String ZArith List Bool.
From Verif.Model Require Import Text.
Import ListNotations.
Open Scope Z_scope.
Open Scope list_scope.

Record section := mk_section { s_name : list Z; s_size : Z; s_addr : Z }.

Definition blanks (n : nat) : list Z := repeat 32 n.
Definition blank (c : Z) : Prop := c = 32 \/ 9 <= c <= 13.

(** Letters, digits, _ and . *)
Definition name_char (c : Z) : Prop := 48 <= c <= 57 \/ 65 <= c <= 90 \/ 97 <= c <= 122 \/ c = 95 \/ c = 46.
(** Names of sections: such characters, not starting with a digit. *)
Definition plain_name (n : list Z) : Prop := Forall name_char n /\ exists c n', n = c :: n' /\ ~ 48 <= c <= 57.

(** Other names are allowed when the part after the last special character, such as "id" in
    .note.gnu.build-id, is not itself one of the names that are counted. *)
Definition counted : list (list Z) := [txt ".text"; txt ".data"; txt ".rodata"; txt ".bss"].
(** The upper case letters of a name in lower case. *)
Definition small (n : list Z) : list Z := map (fun c => if (65 <=? c) && (c <=? 90) then c + 32 else c) n.
Definition other_name (n : list Z) : Prop := exists c1 front c last,
  n = front ++ c :: last /\ hd c front = c1 /\ ~ 48 <= c1 <= 57 /\
  Forall (fun c => ~ blank c) front /\ ~ blank c /\ ~ name_char c /\
  Forall name_char last /\ last <> [] /\ ~ In (small last) counted.

(** One line of the table; the numbers of blanks depend on the widths of the columns. *)
Inductive prints_section (x : section) : list Z -> Prop :=
  | prints_line n1 n2 : prints_section x
      (s_name x ++ blanks (S n1) ++ dec_digits (s_size x) ++ blanks (S n2) ++ dec_digits (s_addr x) ++ [10]).
Inductive prints_sections : list section -> list Z -> Prop :=
  | prints_none : prints_sections [] []
  | prints_one x xs t ts : prints_section x t -> prints_sections xs ts -> prints_sections (x :: xs) (t ++ ts).

(** The whole output for a file whose path has no white space in it and ends in .elf. *)
Inductive prints (xs : list section) : list Z -> Prop :=
  | prints_all path table total n1 n2 n3 n4 :
      Forall (fun c => ~ blank c) path -> prints_sections xs table -> 0 <= total ->
      prints xs (path ++ txt ".elf  :" ++ [10] ++
        (txt "section" ++ blanks (S n1) ++ txt "size" ++ blanks (S n2) ++ txt "addr" ++ [10]) ++
        table ++ (txt "Total" ++ blanks (S n3) ++ dec_digits total ++ [10]) ++ repeat 10 n4).

(** The bytes in sections of the given name. *)
Definition bytes_in (name : list Z) (xs : list section) : Z :=
  fold_right Z.add 0 (map s_size (filter (fun x => if list_eq_dec Z.eq_dec (small (s_name x)) name then true else false) xs)).
Definition has_section (name : list Z) (xs : list section) : Prop := exists x, In x xs /\ small (s_name x) = name.
