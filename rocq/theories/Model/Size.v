(** Model of evaluate/size.py: what is made of the output of `size -A`. Building the program and running
    `size` are not modelled; the text printed by `size` is an argument. *)
From Coq Require Import String Ascii ZArith List Bool.
From Verif.Base Require Import Res.
From Verif.Model Require Import Text Cgen.
Import ListNotations.
Open Scope Z_scope.
Open Scope list_scope.
Open Scope res_scope.

(** \w of a regular expression, for ASCII text *)
Definition is_word (c : Z) : bool :=
  is_digit c || ((65 <=? c) && (c <=? 90)) || ((97 <=? c) && (c <=? 122)) || (c =? 95).
(** size.py:54  [\w.] *)
Definition field_char (c : Z) : bool := is_word c || (c =? 46).

Fixpoint take_while (p : Z -> bool) (s : text) : text :=
  match s with c :: s' => if p c then c :: take_while p s' else [] | [] => [] end.

(** size.py:54  a match of ([\w.]+)\s+(\d+) at the beginning of s: the two groups and the number of
    characters matched. The three character classes leave no choice to backtracking: a shorter first
    group is followed by a field character, not a space, and a shorter run of spaces by a space, not a
    digit. \s and \d are taken for ASCII text. *)
Definition match_field (s : text) : option (text * text * nat) :=
  let w := take_while field_char s in
  let s1 := skipn (List.length w) s in
  let sp := take_while is_space s1 in
  let s2 := skipn (List.length sp) s1 in
  let ds := take_while is_digit s2 in
  match w, sp, ds with
  | _ :: _, _ :: _, _ :: _ => Some (w, ds, (List.length w + List.length sp + List.length ds)%nat)
  | _, _, _ => None
  end.

(** re.finditer: from the left, the next match starts after the previous one. [skip] counts the
    characters of the last match still to be passed over. *)
Fixpoint finditer (skip : nat) (s : text) : list (text * text) :=
  match s with
  | [] => []
  | _ :: s' =>
      match skip with
      | S k => finditer k s'
      | O => match match_field s with
             | Some (field, value, n) => (field, value) :: finditer (pred n) s'
             | None => finditer 0 s'
             end
      end
  end.

(** str.lower, for ASCII text *)
Definition lower (s : text) : text := map (fun c => if (65 <=? c) && (c <=? 90) then c + 32 else c) s.

(** A dict from names to sizes; a later assignment replaces an earlier one. *)
Definition dict : Type := list (text * Z).
Fixpoint dict_get (d : dict) (k : text) : option Z :=
  match d with
  | (k', v) :: d' => if text_eqb k k' then Some v else dict_get d' k
  | [] => None
  end.
Fixpoint dict_set (d : dict) (k : text) (v : Z) : dict :=
  match d with
  | (k', v') :: d' => if text_eqb k k' then (k', v) :: d' else (k', v') :: dict_set d' k v
  | [] => [(k, v)]
  end.
(** d[k], KeyError when missing *)
Definition dict_at (d : dict) (k : text) : res Z :=
  match dict_get d k with Some v => Ret v | None => Err KeyError_ end.

(** size.py:34-72  parse_binutils_size_a_output *)
Definition parse_binutils_size_a_output (stdout : text) : res dict :=
  let lines := split_on (Z.eqb 10) stdout in
  let* file_line := pyget lines 0 in
  let* header_line := pyget lines 1 in
  if negb (contains (txt ".elf") file_line) then Err AssertionError_
  else if negb (contains (txt "section") header_line) then Err AssertionError_
  else if negb (contains (txt "size") header_line) then Err AssertionError_
  else
    let matches := finditer 0 stdout in
    let out := fold_left (fun out '(field, value) =>
        let '(v, _, _) := take_digits 0 0 value in dict_set out (lower field) v) matches [] in
    let out := fold_left (fun out section =>
        match dict_get out section with Some _ => out | None => dict_set out section 0 end)
        [txt ".rodata"; txt ".data"; txt ".bss"] out in
    match dict_get out (txt ".text"), dict_get out (txt ".data") with
    | Some _, Some _ => Ret out
    | _, _ => Err AssertionError_
    end.

(** size.py:74-97  run_binutils_size, after `size` has printed [out]: (flash, ram) *)
Definition run_binutils_size (out : text) : res (Z * Z) :=
  let* parsed := parse_binutils_size_a_output out in
  let* text_ := dict_at parsed (txt ".text") in
  let* data := dict_at parsed (txt ".data") in
  let* rodata := dict_at parsed (txt ".rodata") in
  let* bss := dict_at parsed (txt ".bss") in
  Ret (text_ + data + rodata, data + bss).
