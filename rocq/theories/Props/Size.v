(** C97: program sizes read from the output of `size -A`. *)
From Coq Require Import String ZArith List Bool Lia.
From Verif.Base Require Import Res.
From Verif.Model Require Import Text Cgen Size.
From Verif.Spec Require Import SizeSpec.
From Verif.Proof Require Size.
Import ListNotations.
Open Scope Z_scope.
Open Scope list_scope.

(** Flash is .text + .data + .rodata and RAM is .data + .bss, for every list of sections in every order
    and every width of the columns; a missing .data, .rodata or .bss counts 0. *)
Theorem C97_sizes : forall sections out,
  Forall (fun x => (plain_name (s_name x) \/ other_name (s_name x)) /\ 0 <= s_size x /\ 0 <= s_addr x) sections ->
  NoDup (map (fun x => small (s_name x)) sections) ->
  prints sections out -> has_section (txt ".text") sections ->
  run_binutils_size out =
    Ret (bytes_in (txt ".text") sections + bytes_in (txt ".data") sections + bytes_in (txt ".rodata") sections,
         bytes_in (txt ".data") sections + bytes_in (txt ".bss") sections).
Proof. exact Size.run_ok. Qed.

(** A program without .text is refused. *)
Theorem C97_no_text : forall sections out,
  Forall (fun x => (plain_name (s_name x) \/ other_name (s_name x)) /\ 0 <= s_size x /\ 0 <= s_addr x) sections ->
  NoDup (map (fun x => small (s_name x)) sections) ->
  prints sections out -> ~ has_section (txt ".text") sections ->
  run_binutils_size out = Err AssertionError_.
Proof. exact Size.run_no_text. Qed.

(** Output for a file that is not .elf, such as an error message in one line, is refused. *)
Theorem C97_refused : forall out, contains (txt ".elf") (hd [] (split_on (Z.eqb 10) out)) = false ->
  run_binutils_size out = Err AssertionError_ \/ run_binutils_size out = Err IndexError_.
Proof.
  intros out H. unfold run_binutils_size, parse_binutils_size_a_output.
  destruct (split_on (Z.eqb 10) out) as [|f [|h rest]]; cbn [hd] in H; [right; reflexivity|right; reflexivity|left].
  change (pyget (f :: h :: rest) 0) with (Ret f). change (pyget (f :: h :: rest) 1) with (Ret h). cbn [bind].
  rewrite H. reflexivity.
Qed.

(** An AVR program: the sections .data, .text, .bss, .comment and .note.gnu.build-id. *)
Definition avr : list section :=
  [mk_section (txt ".data") 12 8388864; mk_section (txt ".text") 1450 0; mk_section (txt ".bss") 7 8388876;
   mk_section (txt ".comment") 17 0; mk_section (txt ".note.gnu.build-id") 36 0].
Definition avr_out : list Z :=
  txt "/tmp/tmpx1/out.elf  :" ++ [10] ++ txt "section    size      addr" ++ [10] ++
  txt ".data       12   8388864" ++ [10] ++ txt ".text     1450         0" ++ [10] ++
  txt ".bss         7   8388876" ++ [10] ++ txt ".comment    17         0" ++ [10] ++
  txt ".note.gnu.build-id  36  0" ++ [10] ++ txt "Total     1522" ++ [10; 10; 10].
Example C97_prints : prints avr avr_out.
Proof.
  replace avr_out with
    (txt "/tmp/tmpx1/out" ++ txt ".elf  :" ++ [10] ++ (txt "section" ++ blanks 4 ++ txt "size" ++ blanks 6 ++ txt "addr" ++ [10]) ++
     ((txt ".data" ++ blanks 7 ++ dec_digits 12 ++ blanks 3 ++ dec_digits 8388864 ++ [10]) ++
      (txt ".text" ++ blanks 5 ++ dec_digits 1450 ++ blanks 9 ++ dec_digits 0 ++ [10]) ++
      (txt ".bss" ++ blanks 9 ++ dec_digits 7 ++ blanks 3 ++ dec_digits 8388876 ++ [10]) ++
      (txt ".comment" ++ blanks 4 ++ dec_digits 17 ++ blanks 9 ++ dec_digits 0 ++ [10]) ++
      (txt ".note.gnu.build-id" ++ blanks 2 ++ dec_digits 36 ++ blanks 2 ++ dec_digits 0 ++ [10]) ++ []) ++
     (txt "Total" ++ blanks 5 ++ dec_digits 1522 ++ [10]) ++ repeat 10 2) by (vm_compute; reflexivity).
  apply (prints_all avr (txt "/tmp/tmpx1/out") _ 1522 3 5 4 2).
  - apply Size.not_blank_txt. reflexivity.
  - unfold avr.
    apply prints_one; [apply (prints_line (mk_section (txt ".data") 12 8388864) 6 2)|].
    apply prints_one; [apply (prints_line (mk_section (txt ".text") 1450 0) 4 8)|].
    apply prints_one; [apply (prints_line (mk_section (txt ".bss") 7 8388876) 8 2)|].
    apply prints_one; [apply (prints_line (mk_section (txt ".comment") 17 0) 3 8)|].
    apply prints_one; [apply (prints_line (mk_section (txt ".note.gnu.build-id") 36 0) 1 1)|].
    apply prints_none.
  - lia.
Qed.
Lemma plain_txt c s : Size.field_char c = true -> is_digit c = false -> forallb Size.field_char (txt s) = true -> plain_name (c :: txt s).
Proof.
  intros H1 H2 H3. split.
  - constructor; [now apply Size.field_char_iff|]. apply Forall_forall. intros d Hd. apply Size.field_char_iff.
    exact (proj1 (forallb_forall _ _) H3 d Hd).
  - exists c, (txt s). split; [reflexivity|]. intros Q. apply Text.is_digit_iff in Q. congruence.
Qed.
Example C97_instance : run_binutils_size avr_out = Ret (1462, 19).
Proof.
  rewrite (C97_sizes avr avr_out).
  - reflexivity.
  - unfold avr.
    do 4 (apply Forall_cons; [split; [left; apply (plain_txt 46); reflexivity|cbn; lia]|]).
    apply Forall_cons; [|apply Forall_nil]. split; [right|cbn; lia].
    exists 46, (txt ".note.gnu.build"), 45, (txt "id"). split; [reflexivity|]. split; [reflexivity|]. split; [lia|].
    split; [apply Size.not_blank_txt; reflexivity|]. split; [unfold blank; lia|]. split; [unfold name_char; lia|].
    split; [apply Forall_forall; intros d Hd; apply Size.field_char_iff; revert d Hd; apply forallb_forall; reflexivity|].
    split; [discriminate|]. cbn. intuition discriminate.
  - unfold avr. cbn [map s_name]. repeat (apply NoDup_cons; [cbn; intuition discriminate|]). apply NoDup_nil.
  - exact C97_prints.
  - exists (mk_section (txt ".text") 1450 0). split; [cbn; tauto|reflexivity].
Qed.
