(** What a CSV text is: lines of fields, ',' between fields and a newline after each line. *)
From Coq Require Import ZArith List Bool.
Import ListNotations.
Open Scope Z_scope.

Definition comma : Z := 44.
Definition newline : Z := 10.

(** The fields with commas between them. *)
Fixpoint join (fields : list (list Z)) : list Z :=
  match fields with
  | [] => []
  | [f] => f
  | f :: fs => f ++ comma :: join fs
  end.
Definition line (fields : list (list Z)) : list Z := join fields ++ [newline].

(** The text of a whole file. *)
Definition csv_text (header : list (list Z)) (rows : list (list (list Z))) : list Z :=
  line header ++ concat (map line rows).

(** A field that can be written without quoting: no comma, newline or NUL. *)
Definition plain (f : list Z) : Prop := Forall (fun c => c <> comma /\ c <> newline /\ c <> 0) f.

(** The fields of the first line of a text that are closed by a comma or the newline. *)
Fixpoint closed_fields (current : list Z) (text : list Z) : list (list Z) :=
  match text with
  | [] => []
  | c :: text' =>
      if c =? newline then [current]
      else if c =? comma then current :: closed_fields [] text'
      else closed_fields (current ++ [c]) text'
  end.

(** Length of the first line, without the newline. *)
Fixpoint line_length (text : list Z) : Z :=
  match text with
  | [] => 0
  | c :: text' => if c =? newline then 0 else 1 + line_length text'
  end.
