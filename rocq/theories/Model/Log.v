(** Model of emlearn/eml_log.h: structured log entries as text. Text is the list of its character codes
    (Model/Text.v). *)
From Coq Require Import String ZArith List Bool.
From Flocq Require Import Core BinarySingleNaN.
From Verif.Base Require Import Res Float.
From Verif.Model Require Import Text.
Import ListNotations.
Open Scope Z_scope.
Open Scope res_scope.

(** An argument of printf: a char *, an int, a double (a float is promoted). *)
Inductive printf_arg : Type := AStr (s : list Z) | AInt (z : Z) | ADouble (x : f64).
(** printf with the conversions used in eml_log.h and by its callers: %s, %d, %.kf with one digit k, and %%.
    Anything else, an argument of another type or a missing one is undefined behaviour. *)
Fixpoint printf (fmt : list Z) (args : list printf_arg) : res (list Z) :=
  match fmt with
  | [] => Ret []
  | c :: fmt1 =>
      if c =? 37 then
        match fmt1, args with
        | 37 :: fmt2, _ => let* t := printf fmt2 args in Ret (37 :: t)
        | 115 :: fmt2, AStr s :: args => let* t := printf fmt2 args in Ret (s ++ t)
        | 100 :: fmt2, AInt z :: args => let* t := printf fmt2 args in Ret (fmt_int z ++ t)
        | 46 :: k :: 102 :: fmt2, ADouble x :: args =>
            if (49 <=? k) && (k <=? 57) then let* t := printf fmt2 args in Ret (fmt_fixed (Z.to_nat (k - 48)) x ++ t)
            else Err OutOfBounds
        | _, _ => Err OutOfBounds
        end
      else let* t := printf fmt1 args in Ret (c :: t)
  end.

(** One of EML_LOG_ADD, EML_LOG_ADD_INTEGER, EML_LOG_ADD_BOOL, EML_LOG_ADD_FLOAT, EML_LOG_ADD_ARRAY with its
    arguments. *)
Inductive log_add : Type :=
  | Add (key value : list Z)
  | AddInteger (key : list Z) (value : Z)
  | AddBool (key : list Z) (value : bool)
  | AddFloat (key : list Z) (value : f64)
  | AddArray (key : list Z) (arr : list printf_arg) (len : Z) (fmt : list Z).

(** eml_log.h:62-72  EML_LOG_PRINT_ARRAY *)
Definition log_print_array (arr : list printf_arg) (len : Z) (fmt : list Z) : res (list Z) :=
  let* o := printf (txt "[") [] in
  let* b := foldM (fun out i =>
      let* a := zget arr i in
      let* t := printf fmt [a] in
      if i =? len - 1 then Ret (out ++ t) else let* s := printf (txt ",") [] in Ret (out ++ t ++ s)) [] (zrange len) in
  let* c := printf (txt "]") [] in
  Ret (o ++ b ++ c).
(** eml_log.h:89-116  one key with its value *)
Definition log_field (a : log_add) : res (list Z) :=
  match a with
  | Add key str => printf (txt " %s=%s") [AStr key; AStr str]
  | AddInteger key integer => printf (txt " %s=%d") [AStr key; AInt integer]
  | AddBool key boolean => printf (txt " %s=%s") [AStr key; AStr (if boolean then txt "true" else txt "false")]
  | AddFloat key flt => printf (txt " %s=%.4f") [AStr key; ADouble flt]
  | AddArray key arr len fmt =>
      let* k := printf (txt " %s") [AStr key] in
      let* v := log_print_array arr len fmt in
      Ret (k ++ v)
  end.
(** A log entry: EML_LOG_BEGIN(event), the given macros, EML_LOG_END(), and what is written to stderr.
    eml_log.h:44-58: if EML_LOG_ENABLE is 0 (the default) EML_LOG_PRINTF expands to nothing, its arguments are
    not evaluated. eml_log.h:79-84: the name of the event is the format. *)
Definition log_entry (enabled : bool) (event : list Z) (adds : list log_add) : res (list Z) :=
  if enabled then
    let* b := printf event [] in
    let* fs := mapM log_field adds in
    let* e := printf [10] [] in
    Ret (b ++ concat fs ++ e)
  else Ret [].
(** Several entries one after the other. *)
Definition log_entries (enabled : bool) (l : list (list Z * list log_add)) : res (list Z) :=
  let* ts := mapM (fun '(event, adds) => log_entry enabled event adds) l in
  Ret (concat ts).
