(** Model of emlearn/cgen.py and emlearn/creserved.py: the text of generated C declarations. Text is the list
    of its character codes (Model/Text.v). *)
From Coq Require Import String ZArith List Bool.
From Flocq Require Import Core BinarySingleNaN.
From Verif.Base Require Import Res Float.
From Verif.Model Require Import Text TreesC FixedPoint.
Import ListNotations.
Open Scope Z_scope.
Open Scope res_scope.

Definition text := list Z.
(** a == b on strings *)
Definition text_eqb (a b : text) : bool := if list_eq_dec Z.eq_dec a b then true else false.
(** s.startswith(p) *)
Fixpoint starts_with (p s : text) : bool :=
  match p, s with
  | [], _ => true
  | c :: p', d :: s' => (c =? d) && starts_with p' s'
  | _ :: _, [] => false
  end.
(** p in s *)
Fixpoint contains (p s : text) : bool :=
  starts_with p s || match s with [] => false | _ :: s' => contains p s' end.

(** *** Identifiers *)

(** creserved.py:6-42  C89_RESERVED_WORDS: the words between the newlines, the empty one included. *)
Definition C89_RESERVED_WORDS : list text := split_on (Z.eqb 10) (txt "
auto
else
long
switch
break
enum
register
typedef
case
extern
return
union
char
float
short
unsigned
const
for
signed
void
continue
goto
sizeof
volatile
default
if
static
while
do
int
struct
_Packed
double
_Imaginary
").
(** creserved.py:44-51 *)
Definition C99_RESERVED_WORDS : list text := split_on (Z.eqb 10) (txt "
inline
restrict
_Bool
_Complex
_Imaginary
").
(** creserved.py:53-62 *)
Definition C11_RESERVED_WORDS : list text := split_on (Z.eqb 10) (txt "
_Alignas
_Alignof
_Atomic
_Generic
_Noreturn
_Static_assert
_Thread_local
").
(** creserved.py:64-81 *)
Definition C23_RESERVED_WORDS : list text := split_on (Z.eqb 10) (txt "
alignas
alignof
bool
constexpr
false
nullptr
static_assert
thread_local
true
typeof
typeof_unqual
_BitInt
_Decimal128
_Decimal32
_Decimal64
").
(** creserved.py:83 *)
Definition RESERVED_WORDS : list text :=
  C89_RESERVED_WORDS ++ C99_RESERVED_WORDS ++ C11_RESERVED_WORDS ++ C23_RESERVED_WORDS.

(** The character classes [_a-zA-Z] and [_a-zA-Z0-9] of VALID_IDENTIFIER_REGEX (cgen.py:10). *)
Definition class_first (c : Z) : bool :=
  (c =? 95) || ((97 <=? c) && (c <=? 122)) || ((65 <=? c) && (c <=? 90)).
Definition class_rest (c : Z) : bool := class_first c || ((48 <=? c) && (c <=? 57)).
(** [_a-zA-Z0-9]*$ at the rest of the string. `$` (without re.MULTILINE) matches at the end and also just
    before a newline that ends the string. *)
Fixpoint match_rest (s : text) : bool :=
  match s with
  | [] => true
  | c :: s' => if class_rest c then match_rest s' else match s' with [] => c =? 10 | _ => false end
  end.
(** cgen.py:119-129  identifier_is_valid: re.match of ^[_a-zA-Z][_a-zA-Z0-9]*$ *)
Definition identifier_is_valid (s : text) : bool :=
  match s with [] => false | c :: s' => class_first c && match_rest s' end.
(** cgen.py:131-141  identifier_is_reserved *)
Definition identifier_is_reserved (s : text) : bool := existsb (text_eqb s) RESERVED_WORDS.
(** cgen.py:143-157  assert_valid_identifier *)
Definition assert_valid_identifier (s : text) : res unit :=
  if negb (identifier_is_valid s) then Err ValueError_
  else if identifier_is_reserved s then Err ValueError_
  else Ret tt.

(** *** Constants and declarations *)
Section G.
(** str() of a Python float (cgen.py:54): the shortest text that reads back; not modelled. *)
Variable str_float : f64 -> text.

(** str(val) of a number *)
Definition py_str (val : pynum) : text :=
  match val with PyInt z => fmt_int z | PyFloat x => str_float x end.
(** float(val): OverflowError for an int too large for a float. *)
Definition py_float (val : pynum) : res f64 :=
  match val with
  | PyFloat x => Ret x
  | PyInt z => let x := f_of_Z z : f64 in if is_finite x then Ret x else Err OverflowError_
  end.
(** cgen.py:42-54  constant *)
Definition constant (val : pynum) (dtype : text) : res text :=
  if text_eqb dtype (txt "float") then let* x := py_float val in Ret (fmt_fixed 6 x ++ txt "f")
  else if contains (txt "int") dtype then let* z := py_int val in Ret (fmt_int z)
  else Ret (py_str val).

(** cgen.py:56-71  constant_declare *)
Definition constant_declare (name : text) (val : pynum) (dtype : text) : res text :=
  let* v := constant val dtype in
  Ret (txt "static const " ++ dtype ++ txt " " ++ name ++ txt " = " ++ v ++ txt "; ").

(** cgen.py:73-100  array_declare. Without size and values the text says [None]. *)
Definition array_declare (name : text) (size : option Z) (dtype modifiers : text)
    (values : option (list pynum)) (end_ indent : text) : res text :=
  let* size := match values with
    | None => Ret size
    | Some values =>
        let size := match size with None => zlen values | Some n => n end in
        do* py_assert (size =? zlen values);
        Ret (Some size)
    end in
  let* init := match values with
    | None => Ret []
    | Some values =>
        let* init_values := mapM (fun v => constant v dtype) values in
        Ret (txt " = { " ++ join_with (txt ", ") init_values ++ txt " }")
    end in
  let size_text := match size with None => txt "None" | Some n => fmt_int n end in
  Ret (indent ++ modifiers ++ txt " " ++ dtype ++ txt " " ++ name ++ txt "[" ++ size_text ++ txt "]" ++ init ++ txt ";" ++ end_).

(** fixedpoint.py:10-32  FixedPointFormat, total_bits, ctype *)
Record fixedpoint_format : Type := mk_fixedpoint { integer_bits : Z; fraction_bits : Z; sign_bits : Z }.
Definition total_bits (f : fixedpoint_format) : Z := integer_bits f + fraction_bits f + sign_bits f.
Definition ctype (f : fixedpoint_format) : res text :=
  do* py_assert (total_bits f =? 32);
  if (integer_bits f =? 15) && (fraction_bits f =? 16) && (sign_bits f =? 1) then Ret (txt "eml_q16_t")
  else Ret (txt "eml_fixed32_t").

(** cgen.py:103-116  array_declare_fixedpoint. Without a format the other arguments go to array_declare
    unchanged; with one, dtype is not among them. *)
Definition array_declare_fixedpoint (name : text) (fixedpoint : option fixedpoint_format) (size : option Z)
    (dtype modifiers : text) (values : list f64) (end_ indent : text) : res text :=
  match fixedpoint with
  | None => array_declare name size dtype modifiers (Some (map PyFloat values)) end_ indent
  | Some f =>
      do* py_assert (total_bits f =? 32);
      let* converted := mapM (fun v => from_float v (fraction_bits f)) values in
      let* t := ctype f in
      array_declare name size t modifiers (Some (map PyInt converted)) end_ indent
  end.

(** cgen.py:15-23  struct_init, on arguments already turned into text by str() *)
Definition struct_init (args : list text) : text := txt "{ " ++ join_with (txt ", ") args ++ txt " }".
(** cgen.py:25-39  struct_declare. The modifiers are not used. *)
Definition struct_declare (name type_name : text) (values : option (list text)) (modifiers : text) : text :=
  let init := match values with None => [] | Some values => txt "= " ++ struct_init values end in
  type_name ++ txt " " ++ name ++ init ++ txt ";".
End G.
