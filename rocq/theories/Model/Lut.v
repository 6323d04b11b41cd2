(** Model of the code generators for lookup tables: signal.sparse_filterbank_serialize and the command line tools
    eml-window-function and eml-mel-filterbank. Text is the list of its character codes. *)
From Coq Require Import String ZArith List Bool.
From Flocq Require Import Core BinarySingleNaN.
From Verif.Base Require Import Res Float.
From Verif.Model Require Import Text TreesC Cgen.
Import ListNotations.
Open Scope Z_scope.
Open Scope res_scope.
Open Scope list_scope.

(** *** textwrap.wrap(text, width), of Python's standard library, called at tools/window_function.py:49 and
    tools/mel_filterbank.py:27 *)
(** textwrap: whitespace is tab, newline, vertical tab, form feed, carriage return, space. *)
Definition ws (c : Z) : bool := is_space c.
Definition blank (chunk : text) : bool := forallb ws chunk.
(** textwrap.TextWrapper._split: runs of whitespace and runs of other characters. The regular expression also splits
    words after hyphens that follow letters and at double hyphens; generated code has neither. *)
Fixpoint split_chunks (s : text) : list text :=
  match s with
  | [] => []
  | c :: s' =>
      match split_chunks s' with
      | (d :: t) :: rest => if Bool.eqb (ws c) (ws d) then (c :: d :: t) :: rest else [c] :: (d :: t) :: rest
      | rest => [c] :: rest
      end
  end.
(** textwrap.TextWrapper._wrap_chunks: the inner loop, taking chunks while they fit. *)
Fixpoint fill_line (width cur_len : Z) (chunks : list text) : list text * Z * list text :=
  match chunks with
  | c :: rest =>
      if cur_len + zlen c <=? width then
        let '(line, len, rest') := fill_line width (cur_len + zlen c) rest in (c :: line, len, rest')
      else ([], cur_len, chunks)
  | [] => ([], cur_len, [])
  end.
(** str.rfind('-') in a text, -1 when there is none. *)
Fixpoint rfind_hyphen (i best : Z) (s : text) : Z :=
  match s with [] => best | c :: s' => rfind_hyphen (i + 1) (if c =? 45 then i else best) s' end.
(** textwrap.TextWrapper._handle_long_word (Python 3.10 and later): how much of the word goes to this line. *)
Definition break_at (chunk : text) (space_left : Z) : Z :=
  if space_left <? zlen chunk then
    let hyphen := rfind_hyphen 0 (-1) (firstn (Z.to_nat space_left) chunk) in
    if (0 <? hyphen) && existsb (fun c => negb (c =? 45)) (firstn (Z.to_nat hyphen) chunk) then hyphen + 1
    else space_left
  else space_left.
(** del cur_line[-1] if it is blank (drop_whitespace) *)
Definition drop_last_blank (line : list text) : list text :=
  match rev line with c :: r => if blank c then rev r else line | [] => [] end.
(** textwrap.TextWrapper._wrap_chunks: the outer loop; [lines] are the lines made so far. *)
Fixpoint wrap_chunks (fuel : nat) (width : Z) (lines : list text) (chunks : list text) : res (list text) :=
  match chunks with
  | [] => Ret lines
  | c0 :: rest0 =>
      match fuel with
      | O => Err NoFuel
      | S fuel' =>
          let chunks1 := if blank c0 && negb (match lines with [] => true | _ => false end) then rest0 else chunks in
          let '(line, len, rest) := fill_line width 0 chunks1 in
          let '(line, rest) :=
            match rest with
            | c :: rest' =>
                if width <? zlen c then
                  let n := Z.to_nat (break_at c (width - len)) in (line ++ [firstn n c], skipn n c :: rest')
                else (line, rest)
            | [] => (line, rest)
            end in
          let line := drop_last_blank line in
          wrap_chunks fuel' width (match line with [] => lines | _ => lines ++ [concat line] end) rest
      end
  end.
(** textwrap.wrap(text, width, replace_whitespace); tabs are not expanded (generated code has none). *)
Definition textwrap_wrap (s : text) (width : Z) (replace_whitespace : bool) : res (list text) :=
  if width <=? 0 then Err ValueError_
  else
    let s := if replace_whitespace then map (fun c => if ws c then 32 else c) s else s in
    wrap_chunks (S (length s)) width [] (split_chunks s).

Section G.
Variable str_float : f64 -> text.

(** cgen.array_declare(name, size, dtype=..., values=...) with the defaults of the other arguments (cgen.py:73) *)
Definition declare_array (name : text) (size : Z) (dtype : text) (values : list pynum) : res text :=
  array_declare str_float name (Some size) dtype (txt "static const") (Some values) [] [].
(** cgen.constant_declare(name, val=...) (cgen.py:56) *)
Definition declare_int (name : text) (val : pynum) : res text := constant_declare str_float name val (txt "int").
Definition declare_opt (name : text) (val : option pynum) : res (list text) :=
  match val with None => Ret [] | Some v => let* t := declare_int name v in Ret [t] end.

(** signal.py:26-63  sparse_filterbank_serialize *)
Definition sparse_filterbank_serialize (sparse : list Z * list Z * list f64) (name : text)
    (frequencies : option (list f64)) (n_fft sr fmin fmax : option pynum) : res text :=
  let '(starts, ends, coeffs) := sparse in
  do* py_assert (zlen starts =? zlen ends);
  let n_bands := zlen starts in
  let* a1 := declare_int (name ++ txt "_bands") (PyInt n_bands) in
  let* a2 := declare_array (name ++ txt "_starts") (zlen starts) (txt "int") (map PyInt starts) in
  let* a3 := declare_array (name ++ txt "_ends") (zlen ends) (txt "int") (map PyInt ends) in
  let* a4 := declare_int (name ++ txt "_length") (PyInt (zlen coeffs)) in
  let* a5 := declare_array (name ++ txt "_lut") (zlen coeffs) (txt "float") (map PyFloat coeffs) in
  let* a6 := (match frequencies with
              | None => Ret []
              | Some fs => let* t := declare_array (name ++ txt "_frequencies") (zlen fs) (txt "float") (map PyFloat fs) in Ret [t]
              end) in
  let* a7 := declare_opt (name ++ txt "_nfft") n_fft in
  let* a8 := declare_opt (name ++ txt "_samplerate") sr in
  let* a9 := declare_opt (name ++ txt "_fmax") fmax in
  let* a10 := declare_opt (name ++ txt "_fmin") fmin in
  Ret (join_with [10; 10] ([a1; a2; a3; a4; a5] ++ a6 ++ a7 ++ a8 ++ a9 ++ a10)).

(** tools/window_function.py:39-51  window_function; [window] is what scipy.signal.get_window returned. *)
Definition window_function (name : text) (window : list f64) (length_ linewrap : Z) : res text :=
  let* a := declare_array name length_ (txt "float") (map PyFloat window) in
  let* b := declare_int (name ++ txt "_length") (PyInt length_) in
  let* w := textwrap_wrap (join_with [10] [a; b]) linewrap true in
  Ret (join_with [10] w).

(** tools/mel_filterbank.py:13-29  mel_filterbank, from the sparse form of librosa's filters and frequencies; fmax is the
    argument or samplerate/2. *)
Definition mel_filterbank (name : text) (sparse : list Z * list Z * list f64) (frequencies : list f64)
    (fft samplerate fmin : Z) (fmax : option Z) (linewrap : Z) : res text :=
  let fmax := match fmax with Some m => PyInt m | None => PyFloat (fdiv (f_of_Z samplerate) (f_of_Z 2)) end in
  let* gen := sparse_filterbank_serialize sparse name (Some frequencies)
                (Some (PyInt fft)) (Some (PyInt samplerate)) (Some (PyInt fmin)) (Some fmax) in
  let* w := textwrap_wrap gen linewrap false in
  Ret (join_with [10] w).
End G.

(** tools/window_function.py:54-78 and tools/mel_filterbank.py:62-79  main: the text of the file. *)
Definition window_file (generated : text) : text :=
  txt "// This file was generated with emlearn using eml-window-function" ++ [10; 10] ++ generated.
Definition mel_file (generated : text) : text :=
  txt "// This file was generated with emlearn using eml-mel-filterbank" ++ [10; 10] ++ generated ++ [10; 10].
(** tools/window_function.py:61-64  main: the name when --name is empty; [window_type] and [length_] are the arguments. *)
Definition window_name (name window_type : text) (length_ : Z) : text :=
  match name with [] => join_with (txt "_") [window_type; fmt_int length_; txt "lut"] | _ => name end.
(** tools/mel_filterbank.py:66-67  main *)
Definition mel_name (name : text) (fft bands : Z) : text :=
  match name with [] => join_with (txt "_") [txt "mel"; fmt_int fft; fmt_int bands] | _ => name end.

(** argparse's type=bool (tools/mel_filterbank.py:47-50): bool(text), of an option that is given; else the default. *)
Definition bool_option (default : bool) (argument : option text) : bool :=
  match argument with None => default | Some s => match s with [] => false | _ => true end end.
(** --htk, --normalize (tools/mel_filterbank.py:47-50) *)
Definition htk_option : option text -> bool := bool_option false.
Definition normalize_option : option text -> bool := bool_option true.
