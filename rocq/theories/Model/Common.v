(** eml_common.h: error codes. *)
From Coq Require Import ZArith List String Bool.
From Verif.Base Require Import Res.
Import ListNotations.
Open Scope Z_scope.

(** eml_common.h:19-27  enum EmlError, in declaration order. *)
Inductive eml_error : Type :=
  | EmlOk | EmlSizeMismatch | EmlUnsupported | EmlUninitialized
  | EmlPostconditionFailed | EmlUnknownError.

(** The integer value of each enumerator. *)
Definition eml_error_code (e : eml_error) : Z :=
  match e with
  | EmlOk => 0 | EmlSizeMismatch => 1 | EmlUnsupported => 2 | EmlUninitialized => 3
  | EmlPostconditionFailed => 4 | EmlUnknownError => 5
  end.

(** eml_common.h:26  EmlErrors: the number of enumerators. *)
Definition EmlErrors : Z := 6.

Local Open Scope string_scope.
(** eml_common.h:29-37  eml_error_strs *)
Definition eml_error_strs : list string :=
  [ "OK"; "SizeMismatch"; "Uninitialized"; "Unsupported"; "Postcondition failed"; "Unknown error" ].

(** eml_common.h:39-42  eml_error_valid *)
Definition eml_error_valid (e : Z) : bool := ((0 <=? e) && (e <? EmlErrors))%Z%bool.

(** eml_common.h:47-54  eml_error_str, on any int passed as an EmlError. *)
Definition eml_error_str (e : Z) : res string :=
  if eml_error_valid e then zget eml_error_strs e else Ret "Invalid error code".
