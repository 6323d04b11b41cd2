(** Model of the text written by save(format='csv') in emlearn/trees.py. *)
From Coq Require Import String ZArith List Bool.
From Verif.Base Require Import Res CInt Float.
From Verif.Model Require Import Common Text Cgen TreesConvert TreesC TreesWrapper.
Import ListNotations.
Open Scope Z_scope.
Open Scope list_scope.
Open Scope res_scope.

Section Csv.
(** str() of a numpy.float64 and of a numpy array of bytes, as used by f-strings. *)
Variable float_str : f64 -> text.
Variable array_str : list Z -> text.

(** trees.py:889-905  one line; {l} of a leaf is a numpy integer, a float or an array *)
Definition csv_line (r : csv_record) : text :=
  match r with
  | RFeatures n => txt "f," ++ fmt_int n
  | RClasses n => txt "c," ++ fmt_int n
  | RLeafBits n => txt "lb," ++ fmt_int n
  | RLeaf (LClass c) => txt "l," ++ fmt_int c
  | RLeaf (LValue x) => txt "l," ++ float_str x
  | RLeaf (LProba bytes) => txt "l," ++ array_str bytes
  | RRoot r => txt "r," ++ fmt_int r
  | RNode feature value l r =>
      txt "n," ++ fmt_int feature ++ txt "," ++ float_str value ++ txt "," ++ fmt_int l ++ txt "," ++ fmt_int r
  end.
(** trees.py:884-910  code = '\r\n'.join(lines) *)
Definition save_csv_text (w : wrapper) : res text :=
  let* rs := save_csv w in
  Ret (join_with [13; 10] (map csv_line rs)).
End Csv.
