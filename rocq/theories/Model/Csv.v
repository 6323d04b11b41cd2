(** Model of eml_csv.h. Characters are bytes (0..255); a stream is a byte sequence and a position.
    write() appends everything it is given (its return value is ignored by the code), read()
    returns as many bytes as are available, seek() sets the position. *)
From Coq Require Import ZArith List Bool.
From Verif.Base Require Import Res CInt.
From Verif.Model Require Import Common.
Import ListNotations.
Open Scope Z_scope.
Open Scope res_scope.

(** eml_csv.h:13-18: ',' and '\n' *)
Definition DELIM : Z := 44.
Definition EOL : Z := 10.
Definition NUL : Z := 0.
(** eml_csv.h:20-22 *)
Definition EML_CSV_FLOAT_MAXSIZE : Z := 20.

(** eml_csv.h:51-76  eml_csv_writer_write_header: new n_columns and the stream content. *)
Definition eml_csv_writer_write_header (stream : list Z) (columns : list (list Z)) (n_columns : Z)
  : res (eml_error * Z * list Z) :=
  let data_length := to_int32 n_columns in
  let* s := foldM (fun s i =>
      let* name := zget columns i in
      let s1 := s ++ name in
      let is_last := i =? data_length - 1 in
      Ret (if is_last then s1 else s1 ++ [DELIM])) stream (zrange data_length) in
  Ret (EmlOk, n_columns, s ++ [EOL]).

Section Data.
Context {F : Type}.
(** snprintf("%.6f"): the characters it would print without a limit. *)
Variable fmt : F -> list Z.

(** eml_csv.h:78-104  eml_csv_writer_write_data *)
Definition eml_csv_writer_write_data (n_columns : Z) (stream : list Z) (data : list F)
    (data_length : Z) : res (eml_error * list Z) :=
  if negb (n_columns =? data_length) then Ret (EmlSizeMismatch, stream)
  else
    let* (err, s) := foldM (fun '(err, s) i =>
        match err with
        | EmlOk =>
            let* x := zget data i in
            let text := fmt x in
            if EML_CSV_FLOAT_MAXSIZE <=? zlen text then Ret (EmlUnsupported, s)
            else
              let is_last := i =? data_length - 1 in
              Ret (EmlOk, s ++ (if is_last then text else text ++ [DELIM]))
        | e => Ret (e, s)
        end) (EmlOk, stream) (zrange data_length) in
    match err with
    | EmlOk => Ret (EmlOk, s ++ [EOL])
    | e => Ret (e, s)
    end.
End Data.

(** eml_csv.h:28-37  EmlCsvReader with its stream. *)
Record csv_reader : Type := mk_reader {
  cr_n_columns : Z; cr_location : Z; cr_stream : list Z; cr_pos : Z }.

(** The read() function: up to [size] bytes from the current position, at the start of [buffer]. *)
Definition stream_read (r : csv_reader) (buffer : list Z) (size : Z)
  : res (Z * list Z * csv_reader) :=
  let bytes := firstn (Z.to_nat size) (skipn (Z.to_nat (cr_pos r)) (cr_stream r)) in
  if zlen buffer <? zlen bytes then Err OutOfBounds
  else Ret (zlen bytes, bytes ++ skipn (length bytes) buffer,
   mk_reader (cr_n_columns r) (cr_location r) (cr_stream r) (cr_pos r + zlen bytes)).
(** seek() to an absolute position: succeeds (fseek may move past the end). *)
Definition stream_seek (r : csv_reader) (position : Z) : csv_reader :=
  mk_reader (cr_n_columns r) (cr_location r) (cr_stream r) position.

(** Result of the scan: state of the loop eml_csv.h:126-157. *)
Record scan : Type := mk_scan {
  sc_buffer : list Z;          (* buffer with terminators *)
  sc_columns : list Z;         (* pointers stored in columns[], as offsets into buffer *)
  sc_start : Z;                (* column_start_offset *)
  sc_offset : Z }.

(** The loop returns EmlUnknownError from inside ([TooMany]) or falls out of it. *)
Inductive scan_result : Type := TooMany (s : scan) | Scanned (s : scan).

(** for (offset=0; offset<read_length; offset++); [n] iterations are left. column_idx is the number
    of pointers stored; offset is an int. *)
Fixpoint scan_loop (n : nat) (columns_length : Z) (s : scan) : res scan_result :=
  match n with
  | O => Ret (Scanned s)
  | S n' =>
      let column_idx := zlen (sc_columns s) in
      if columns_length <=? column_idx then Ret (TooMany s)
      else
        let offset := sc_offset s in
        let* c := zget (sc_buffer s) offset in
        let* next := chk_int32 (offset + 1) in
        if c =? DELIM then
          let* b := zset (sc_buffer s) offset NUL in
          scan_loop n' columns_length (mk_scan b (sc_columns s ++ [sc_start s]) next next)
        else if c =? EOL then
          let* b := zset (sc_buffer s) offset NUL in
          Ret (Scanned (mk_scan b (sc_columns s ++ [sc_start s]) next offset))
        else scan_loop n' columns_length (mk_scan (sc_buffer s) (sc_columns s) (sc_start s) next)
  end.

(** eml_csv.h:108-163  eml_csv_reader_read_internal: error, reader, buffer, columns, number of
    columns, offset (the last two are 0, as the callers initialised them, on an error). *)
Definition read_internal (r : csv_reader) (buffer : list Z) (buffer_length columns_length : Z)
  : res (eml_error * csv_reader * list Z * list Z * Z * Z) :=
  let* (read_length, buf, r') := stream_read r buffer buffer_length in
  let* res := scan_loop (Z.to_nat read_length) columns_length (mk_scan buf [] 0 0) in
  match res with
  | TooMany s => Ret (EmlUnknownError, r', sc_buffer s, sc_columns s, 0, 0)
  | Scanned s => Ret (EmlOk, r', sc_buffer s, sc_columns s, zlen (sc_columns s), sc_offset s)
  end.

(** eml_csv.h:166-189  eml_csv_reader_read_header: error, reader, buffer, columns *)
Definition eml_csv_reader_read_header (r : csv_reader) (buffer : list Z)
    (buffer_length columns_length : Z) : res (eml_error * csv_reader * list Z * list Z) :=
  let* (err, r1, buf, cols, columns_read, characters_read) :=
    read_internal r buffer buffer_length columns_length in
  match err with
  | EmlOk =>
      let location := characters_read + 1 in
      Ret (EmlOk, stream_seek (mk_reader columns_read location (cr_stream r1) (cr_pos r1)) location, buf, cols)
  | e => Ret (e, r1, buf, cols)
  end.

(** eml_csv.h:193-225  eml_csv_reader_read_data: return value, reader, buffer, columns. A failed
    precondition returns +EmlSizeMismatch. *)
Definition eml_csv_reader_read_data (r : csv_reader) (buffer : list Z)
    (buffer_length columns_length : Z) : res (Z * csv_reader * list Z * list Z) :=
  if negb (cr_n_columns r <=? columns_length) then
    Ret (eml_error_code EmlSizeMismatch, r, buffer, [])
  else
    let* (err, r1, buf, cols, columns_read, characters_read) :=
      read_internal r buffer buffer_length columns_length in
    match err with
    | EmlOk =>
        if characters_read =? 0 then Ret (0, r1, buf, cols)
        else if negb (columns_read =? cr_n_columns r1) then
          Ret (- eml_error_code EmlUnknownError, r1, buf, cols)
        else
          let location := cr_location r1 + characters_read + 1 in
          Ret (columns_read,
               stream_seek (mk_reader (cr_n_columns r1) location (cr_stream r1) (cr_pos r1)) location, buf, cols)
    | _ => Ret (- eml_error_code EmlUnknownError, r1, buf, cols)
    end.

(** The C string at an offset of the buffer. *)
Fixpoint until_nul (l : list Z) : list Z :=
  match l with
  | [] => []
  | c :: l' => if c =? NUL then [] else c :: until_nul l'
  end.
Definition c_string (buffer : list Z) (o : Z) : list Z := until_nul (skipn (Z.to_nat o) buffer).
