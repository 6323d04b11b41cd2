(** Sequences of calls to the CSV writer and reader. *)
From Coq Require Import ZArith List Bool.
From Verif.Base Require Import Res.
From Verif.Model Require Import Common Csv.
Import ListNotations.
Open Scope Z_scope.
Open Scope res_scope.

Section Write.
Context {F : Type}.
Variable fmt : F -> list Z.
(** write_header on an empty stream, then write_data for each row; every call must return EmlOk. *)
Definition write_file (names : list (list Z)) (rows : list (list F)) : res (option (list Z)) :=
  let* (e, n, s) := eml_csv_writer_write_header [] names (zlen names) in
  match e with
  | EmlOk =>
      foldM (fun st row => match st with
                           | None => Ret None
                           | Some s =>
                               let* (e, s') := eml_csv_writer_write_data fmt n s row (zlen row) in
                               Ret (match e with EmlOk => Some s' | _ => None end)
                           end) (Some s) rows
  | _ => Ret None
  end.
End Write.

(** read_data called repeatedly, each time with some buffer (of the length passed) and columns
    array length: the values returned, and the strings the columns array points to. *)
Fixpoint read_session (r : csv_reader) (calls : list (list Z * Z))
  : res (list (Z * list (list Z))) :=
  match calls with
  | [] => Ret []
  | (buffer, columns_length) :: calls' =>
      let* (v, r', buf, cols) := eml_csv_reader_read_data r buffer (zlen buffer) columns_length in
      let* rest := read_session r' calls' in
      Ret ((v, map (c_string buf) cols) :: rest)
  end.
