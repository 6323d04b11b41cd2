(** Using a 2-D array as a sliding window. *)
From Coq Require Import ZArith List.
From Verif.Base Require Import Res.
From Verif.Model Require Import Common Array.
Import ListNotations.
Open Scope Z_scope.
Open Scope res_scope.

(** Make room for the rows of [chunk], then put them at the end; the calls must succeed. *)
Definition push_rows (a : eml_array) (chunk : eml_array) : res (option eml_array) :=
  let* rows := zget (ar_dims a) 1 in
  let* k := zget (ar_dims chunk) 1 in
  let* (e1, a1) := eml_array_shift_rows a (- k) in
  match e1 with
  | EmlOk => let* (e2, a2) := eml_array_copy_rows a1 (rows - k) chunk in
             Ret (match e2 with EmlOk => Some a2 | _ => None end)
  | _ => Ret None
  end.
Fixpoint push_all (a : eml_array) (chunks : list eml_array) : res (option eml_array) :=
  match chunks with
  | [] => Ret (Some a)
  | c :: cs => let* r := push_rows a c in
               match r with Some a' => push_all a' cs | None => Ret None end
  end.

(** The last [n] elements of a list. *)
Definition last_n {A} (n : nat) (l : list A) : list A := skipn (length l - n) l.
