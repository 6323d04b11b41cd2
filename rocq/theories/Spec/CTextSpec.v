(** Reading C source text: tokens, the definitions at file scope, initialiser lists, and the if/else code of a
    decision tree. Independent of how the text is generated; text is the list of its character codes. *)
From Coq Require Import String ZArith List Bool.
From Verif.Base Require Import Float.
From Verif.Model Require Import Text.
Import ListNotations.
Open Scope Z_scope.

(** ** Tokens: words (identifiers, keywords, numbers) and single characters *)
Inductive tok : Type := W (word : list Z) | P (c : Z).
Definition word_char (c : Z) : bool :=
  (c =? 95) || (c =? 46) || ((48 <=? c) && (c <=? 57)) || ((65 <=? c) && (c <=? 90)) || ((97 <=? c) && (c <=? 122)).
Definition blank (c : Z) : bool := (c =? 32) || ((9 <=? c) && (c <=? 13)).
(** In code, after a '/', or in a comment or preprocessor line (which last to the end of the line). Block comments and
    string literals do not occur. *)
Inductive lex_mode : Type := InCode | AfterSlash | InLine.
(** mode, the word being read, the tokens so far (last one first) *)
Definition lex_state : Type := (lex_mode * list Z * list tok)%type.
Definition end_word (w : list Z) (out : list tok) : list tok := match w with [] => out | _ => W w :: out end.
Definition lex_code (w : list Z) (out : list tok) (c : Z) : lex_state :=
  if word_char c then (InCode, w ++ [c], out)
  else
    let out := end_word w out in
    if blank c then (InCode, [], out)
    else if c =? 47 then (AfterSlash, [], out)
    else if c =? 35 then (InLine, [], out)
    else (InCode, [], P c :: out).
Definition lex_step (s : lex_state) (c : Z) : lex_state :=
  let '(m, w, out) := s in
  match m with
  | InCode => lex_code w out c
  | AfterSlash => if c =? 47 then (InLine, [], out) else lex_code [] (P 47 :: out) c
  | InLine => if c =? 10 then (InCode, [], out) else s
  end.
Definition lex_end (s : lex_state) : list tok :=
  let '(m, w, out) := s in rev (match m with AfterSlash => P 47 :: out | _ => end_word w out end).
Definition tokens (t : list Z) : list tok := lex_end (fold_left lex_step t (InCode, [], [])).

(** ** Definitions at file scope: the name of each, and its tokens from there on.
    A definition is  specifiers name rest  where rest starts with [ ( = or ; and ends with a ; outside brackets, or, for
    a function, with the } that closes its body. *)
Definition opens (c : Z) : bool := (c =? 40) || (c =? 91) || (c =? 123).
Definition closes (c : Z) : bool := (c =? 41) || (c =? 93) || (c =? 125).
Record def_state : Type := mk_def {
  ds_depth : nat;
  ds_word : list Z;                        (* the last word before [ ( = ; *)
  ds_rest : option (list tok);             (* after the name: the tokens so far, last one first *)
  ds_init : bool;                          (* an = was seen outside brackets *)
  ds_found : list (list Z * list tok) }.   (* the definitions so far, last one first *)
Definition def_start (found : list (list Z * list tok)) : def_state := mk_def 0 [] None false found.
Definition ends_def (s : def_state) (rest : list tok) : def_state := def_start ((ds_word s, rev rest) :: ds_found s).
Definition def_step (s : def_state) (x : tok) : def_state :=
  match ds_depth s, x with
  | O, W w =>
      match ds_rest s with
      | None => mk_def 0 w None (ds_init s) (ds_found s)
      | Some r => mk_def 0 (ds_word s) (Some (x :: r)) (ds_init s) (ds_found s)
      end
  | O, P c =>
      match ds_rest s with
      | None =>
          if c =? 59 then ends_def s [x]
          else if (c =? 40) || (c =? 91) then mk_def 1 (ds_word s) (Some [x]) (ds_init s) (ds_found s)
          else if c =? 61 then mk_def 0 (ds_word s) (Some [x]) true (ds_found s)
          else s                             (* as in  float *f(  *)
      | Some r =>
          if c =? 59 then ends_def s (x :: r)
          else if opens c then mk_def 1 (ds_word s) (Some (x :: r)) (ds_init s) (ds_found s)
          else mk_def 0 (ds_word s) (Some (x :: r)) ((c =? 61) || ds_init s) (ds_found s)
      end
  | S d, _ =>
      let r := match ds_rest s with Some r => x :: r | None => [x] end in
      match x with
      | P c =>
          if opens c then mk_def (S (S d)) (ds_word s) (Some r) (ds_init s) (ds_found s)
          else if closes c then
            match d with
            | O => if (c =? 125) && negb (ds_init s) then ends_def s r else mk_def 0 (ds_word s) (Some r) (ds_init s) (ds_found s)
            | _ => mk_def d (ds_word s) (Some r) (ds_init s) (ds_found s)
            end
          else mk_def (S d) (ds_word s) (Some r) (ds_init s) (ds_found s)
      | W _ => mk_def (S d) (ds_word s) (Some r) (ds_init s) (ds_found s)
      end
  end.
Definition definitions (t : list Z) : list (list Z * list tok) := rev (ds_found (fold_left def_step (tokens t) (def_start []))).
(** The identifiers a C file defines at file scope. *)
Definition defined_names (t : list Z) : list (list Z) := map fst (definitions t).

(** The functions called in a text, in order: words before a '(' that are not control words. *)
Definition control (w : list Z) : bool :=
  existsb (fun k => if list_eq_dec Z.eq_dec w k then true else false) (map txt ["for"; "if"; "while"; "switch"; "return"; "sizeof"]%string).
Fixpoint called (ts : list tok) : list (list Z) :=
  match ts with
  | W w :: ((P c :: _) as r) => if (c =? 40) && negb (control w) then w :: called r else called r
  | _ :: r => called r
  | [] => []
  end.

(** ** The code of a decision tree:  return k;   or   if (features[f] < k) { code } else { code } *)
Definition is_word (w : list Z) (x : tok) : bool := match x with W v => if list_eq_dec Z.eq_dec w v then true else false | P _ => false end.
Definition is_char (c : Z) (x : tok) : bool := match x with P d => c =? d | W _ => false end.
(** Skip the tokens given; None when others are there. *)
Fixpoint expect (pat : list (tok -> bool)) (ts : list tok) : option (list tok) :=
  match pat, ts with
  | [], _ => Some ts
  | p :: pat', x :: ts' => if p x then expect pat' ts' else None
  | _, [] => None
  end.
(** A number, perhaps with a minus sign: its text. *)
Definition literal (ts : list tok) : option (list Z * list tok) :=
  match ts with
  | W v :: ts' => Some (v, ts')
  | P c :: W v :: ts' => if c =? 45 then Some (45 :: v, ts') else None
  | _ => None
  end.
Inductive ccode : Type :=
  | CReturn (value : list Z)
  | CIf (feature value : list Z) (yes no : ccode).
Definition kw (s : string) : tok -> bool := is_word (txt s).
Definition ch (s : string) : tok -> bool := is_char (hd 0 (txt s)).
Notation "'let?' p := x 'in' y" := (match x with Some p => y | None => None end) (at level 61, p pattern, right associativity).
Fixpoint read_code (fuel : nat) (ts : list tok) : option (ccode * list tok) :=
  match fuel with
  | O => None
  | S n =>
      match expect [kw "return"] ts with
      | Some ts => let? (v, ts) := literal ts in let? ts := expect [ch ";"] ts in Some (CReturn v, ts)
      | None =>
          let? ts := expect [kw "if"; ch "("; kw "features"; ch "["] ts in
          let? (f, ts) := literal ts in
          let? ts := expect [ch "]"; ch "<"] ts in
          let? (v, ts) := literal ts in
          let? ts := expect [ch ")"; ch "{"] ts in
          let? (yes, ts) := read_code n ts in
          let? ts := expect [ch "}"; kw "else"; ch "{"] ts in
          let? (no, ts) := read_code n ts in
          let? ts := expect [ch "}"] ts in
          Some (CIf f v yes no, ts)
      end
  end.
(** A function  (const ctype *features, int32_t features_length) { code } *)
Definition tree_function (ctype : list Z) (rest : list tok) : option ccode :=
  let? ts := expect [ch "("; kw "const"; is_word ctype; ch "*"; kw "features"; ch ","; kw "int32_t"; kw "features_length"; ch ")"; ch "{"] rest in
  let? (c, ts) := read_code (length ts) ts in
  let? ts := expect [ch "}"] ts in
  match ts with [] => Some c | _ => None end.

(** What executing the code returns. [const] reads a constant the features are compared with, [ret] a returned one, [number]
    an index; [lt] is the comparison. None: a number cannot be read, or a feature is outside the row. *)
Section Exec.
Context {K X V : Type}.
Variable number : list Z -> option Z.
Variable const : list Z -> option K.
Variable ret : list Z -> option V.
Variable lt : X -> K -> bool.
Fixpoint exec (features : list X) (c : ccode) : option V :=
  match c with
  | CReturn v => ret v
  | CIf f v yes no =>
      let? i := number f in
      let? k := const v in
      if i <? 0 then None else
      let? x := nth_error features (Z.to_nat i) in
      if lt x k then exec features yes else exec features no
  end.
End Exec.
(** A decimal integer, perhaps with a minus sign. *)
Definition all_digits (ds : list Z) : bool := forallb (fun c => (48 <=? c) && (c <=? 57)) ds && negb (match ds with [] => true | _ => false end).
Definition value_of (ds : list Z) : Z := fold_left (fun n c => 10 * n + (c - 48)) ds 0.
Definition int_lit (t : list Z) : option Z :=
  match t with
  | c :: ds => if c =? 45 then (if all_digits ds then Some (- value_of ds) else None) else if all_digits t then Some (value_of t) else None
  | [] => None
  end.

(** ** Initialisers *)
(** [n] = { x, y, ... };  with numbers: the length declared and the texts of the numbers. *)
Fixpoint number_list (ts : list tok) (fuel : nat) : option (list (list Z) * list tok) :=
  match fuel with
  | O => None
  | S n =>
      let? (v, ts) := literal ts in
      match expect [ch ","] ts with
      | Some ts => let? (vs, ts) := number_list ts n in Some (v :: vs, ts)
      | None => Some ([v], ts)
      end
  end.
Definition braced (ts : list tok) : option (list (list Z) * list tok) :=
  let? ts := expect [ch "{"] ts in
  match expect [ch "}"] ts with
  | Some ts => Some ([], ts)
  | None => let? (vs, ts) := number_list ts (length ts) in let? ts := expect [ch "}"] ts in Some (vs, ts)
  end.
Definition array_def (rest : list tok) : option (list Z * list (list Z)) :=
  let? ts := expect [ch "["] rest in
  let? (n, ts) := literal ts in
  let? ts := expect [ch "]"; ch "="] ts in
  let? (vs, ts) := braced ts in
  let? ts := expect [ch ";"] ts in
  match ts with [] => Some (n, vs) | _ => None end.
(** [n] = { { a, b }, { c, d }, ... }; *)
Fixpoint row_list (ts : list tok) (fuel : nat) : option (list (list (list Z)) * list tok) :=
  match fuel with
  | O => None
  | S n =>
      let? (v, ts) := braced ts in
      match expect [ch ","] ts with
      | Some ts => let? (vs, ts) := row_list ts n in Some (v :: vs, ts)
      | None => Some ([v], ts)
      end
  end.
Definition table_def (rest : list tok) : option (list Z * list (list (list Z))) :=
  let? ts := expect [ch "["] rest in
  let? (n, ts) := literal ts in
  let? ts := expect [ch "]"; ch "="; ch "{"] ts in
  match expect [ch "}"; ch ";"] ts with
  | Some ts => match ts with [] => Some (n, []) | _ => None end
  | None =>
      let? (rows, ts) := row_list ts (length ts) in
      let? ts := expect [ch "}"; ch ";"] ts in
      match ts with [] => Some (n, rows) | _ => None end
  end.
(** = { field, field, ... };  the tokens of each field (a comma may follow the last one) *)
Fixpoint fields_of (ts : list tok) (depth : nat) (cur : list tok) : option (list (list tok) * list tok) :=
  match ts with
  | [] => None
  | x :: ts' =>
      match depth, x with
      | O, P c =>
          if c =? 44 then let? (fs, rest) := fields_of ts' 0 [] in Some (cur :: fs, rest)
          else if c =? 125 then Some (match cur with [] => [] | _ => [cur] end, ts')
          else fields_of ts' (if opens c then 1 else 0)%nat (cur ++ [x])
      | S d, P c => fields_of ts' (if opens c then S depth else if closes c then d else depth) (cur ++ [x])
      | _, W _ => fields_of ts' depth (cur ++ [x])
      end
  end.
Definition struct_def (rest : list tok) : option (list (list tok)) :=
  let? ts := expect [ch "="; ch "{"] rest in
  let? (fs, ts) := fields_of ts 0 [] in
  let? ts := expect [ch ";"] ts in
  match ts with [] => Some fs | _ => None end.
Definition field_int (f : list tok) : option Z := let? (t, ts) := literal f in match ts with [] => int_lit t | _ => None end.
(** The identifier a pointer field is initialised with: the last word of the field (casts and parentheses come before). *)
Definition field_name (f : list tok) : option (list Z) :=
  fold_left (fun n x => match x with W w => Some w | P _ => n end) f None.
(** A float literal  ddd.dddf, perhaps with a minus sign: the nearest float32. *)
Fixpoint until_point (t : list Z) : list Z * list Z :=
  match t with [] => ([], []) | c :: t' => if c =? 46 then ([], t') else let '(a, b) := until_point t' in (c :: a, b) end.
Definition float_lit (t : list Z) : option f32 :=
  let '(neg, t) := match t with c :: t' => if c =? 45 then (true, t') else (false, t) | [] => (false, t) end in
  let '(ds, fs) := until_point t in
  match rev fs with
  | c :: fs' =>
      if (c =? 102) && all_digits ds && all_digits (rev fs')
      then Some (f_of_dec neg (value_of (ds ++ rev fs')) (Z.of_nat (length fs'))) else None
  | [] => None
  end.
(** The definition of a name. *)
Fixpoint lookup_def (n : list Z) (ds : list (list Z * list tok)) : option (list tok) :=
  match ds with
  | [] => None
  | (m, rest) :: ds' => if list_eq_dec Z.eq_dec n m then Some rest else lookup_def n ds'
  end.
Fixpoint opt_all {A B} (f : A -> option B) (l : list A) : option (list B) :=
  match l with
  | [] => Some []
  | a :: l' => let? b := f a in let? bs := opt_all f l' in Some (b :: bs)
  end.
(** An array of numbers: every initialiser is a number and there are as many as declared. *)
Definition int_array (rest : list tok) : option (list Z) :=
  let? (n, lits) := array_def rest in
  let? n := int_lit n in
  if n =? Z.of_nat (length lits) then opt_all int_lit lits else None.
Definition int_table (rest : list tok) : option (list (list Z)) :=
  let? (n, rows) := table_def rest in
  let? n := int_lit n in
  if n =? Z.of_nat (length rows) then opt_all (opt_all int_lit) rows else None.
(** A function that only calls another:  (...) { const T v = F(a, b, ...); return v; }  F and the tokens of its arguments. *)
Fixpoint up_to (c : Z) (ts : list tok) : option (list tok * list tok) :=
  match ts with
  | [] => None
  | x :: ts' => if is_char c x then Some ([], ts') else let? (a, b) := up_to c ts' in Some (x :: a, b)
  end.
Fixpoint split_at (c : Z) (ts : list tok) : list (list tok) :=
  match ts with
  | [] => [[]]
  | x :: ts' =>
      if is_char c x then [] :: split_at c ts'
      else match split_at c ts' with a :: r => (x :: a) :: r | [] => [[x]] end
  end.
Definition forwards (rest : list tok) : option (list Z * list (list tok)) :=
  let? (_, ts) := up_to 41 rest in
  match ts with
  | P o :: W k :: W _ :: W v :: P e :: W f :: P p :: ts =>
      if (o =? 123) && is_word k (W (txt "const")) && (e =? 61) && (p =? 40) then
        let? (args, ts) := up_to 41 ts in
        let? ts := expect [ch ";"; kw "return"; is_word v; ch ";"; ch "}"] ts in
        match ts with [] => Some (f, split_at 44 args) | _ => None end
      else None
  | _ => None
  end.
