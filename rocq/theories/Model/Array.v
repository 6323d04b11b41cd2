(** Model of eml_array.h. The struct refers to a buffer of bytes; the model keeps the buffer's
    content in [ar_data]. int is 32 bit, size_t 64 bit. *)
From Coq Require Import ZArith List Bool.
From Flocq Require Import Core BinarySingleNaN.
From Verif.Base Require Import Res CInt Float.
From Verif.Model Require Import Common Mem.
Import ListNotations.
Open Scope Z_scope.
Open Scope res_scope.

(** eml_array.h:20 *)
Definition EML_ARRAY_MAX_DIMS : Z := 3.

(** eml_array.h:22-29 *)
Record eml_array : Type := mk_array {
  ar_dims : list Z; ar_n_dims : Z; ar_value_size : Z; ar_data : list Z }.

(** eml_array.h:31-41  eml_storage_size_array: int64_t product (overflow is undefined), converted
    to size_t. *)
Definition eml_storage_size_array (n_dims : Z) (dims : list Z) (value_size : Z) : res Z :=
  let* product := foldM (fun p d => let* x := zget dims d in chk_int64 (p * x)) 1 (zrange n_dims) in
  let* total := chk_int64 (product * value_size) in
  Ret (to_uint64 total).

(** eml_array.h:43-73  eml_array_init_full. [self] is the old content of the struct; on an error
    after the assignments it is left half initialised, as in the code. *)
Definition eml_array_init_full (self : eml_array) (n_dims : Z) (dimensions : list Z)
    (value_size : Z) (buffer : list Z) (buffer_length : Z) : res (eml_error * eml_array) :=
  if negb (n_dims <=? EML_ARRAY_MAX_DIMS) then Ret (EmlSizeMismatch, self)
  else if negb (1 <=? n_dims) then Ret (EmlSizeMismatch, self)
  else
    let* d0 := zget dimensions 0 in
    if negb (1 <=? d0) then Ret (EmlSizeMismatch, self)
    else
      let* buffer_needed := eml_storage_size_array n_dims dimensions value_size in
      if negb (buffer_needed <=? buffer_length) then Ret (EmlSizeMismatch, self)
      else
        let dims0 := [0; 0; 0] in
        let* (ok, dims) := foldM (fun '(ok, dims) d =>
            if (ok : bool) then
              let* x := zget dimensions d in
              let* dims' := zset dims d x in
              Ret (0 <=? x, dims')
            else Ret (ok, dims)) (true, dims0) (zrange n_dims) in
        if ok then Ret (EmlOk, mk_array dims n_dims value_size buffer)
        else Ret (EmlSizeMismatch, mk_array dims n_dims (ar_value_size self) (ar_data self)).

(** eml_array.h:92-112  eml_array_data_2d: None is NULL, otherwise the offset of the cell's first
    byte in the buffer. *)
Definition eml_array_data_2d (self : eml_array) (col row : Z) : res (option Z) :=
  if negb (ar_n_dims self =? 2) then Ret None
  else
    let* d0 := zget (ar_dims self) 0 in
    let* d1 := zget (ar_dims self) 1 in
    if negb (col <? d0) then Ret None
    else if negb (row <? d1) then Ret None
    else if negb (0 <=? col) then Ret None
    else if negb (0 <=? row) then Ret None
    else
      let* m := chk_int32 (row * d0) in
      let* offset := chk_int32 (m + col) in
      let* o := chk_int32 (ar_value_size self * offset) in
      Ret (Some o).

Definition with_data (self : eml_array) (data : list Z) : eml_array :=
  mk_array (ar_dims self) (ar_n_dims self) (ar_value_size self) data.

(** Storing and loading an int16_t at a byte offset (little endian). *)
Definition store16 (data : list Z) (o v : Z) : res (list Z) :=
  let u := v mod 65536 in
  let* d1 := zset data o (u mod 256) in
  zset d1 (o + 1) (u / 256).
Definition load16 (data : list Z) (o : Z) : res Z :=
  let* lo := zget data o in
  let* hi := zget data (o + 1) in
  Ret (to_int16 (lo + 256 * hi)).

(** (int16_t)value of a float: truncation; undefined when the result does not fit. *)
Definition f32_to_i16 (x : f32) : res Z :=
  match x with
  | B754_nan | B754_infinity _ => Err BadCast
  | _ => let z := ftrunc x in
         if (-32768 <=? z) && (z <=? 32767) then Ret z else Err BadCast
  end.

(** eml_array.h:114-128  eml_array_fill *)
Definition eml_array_fill (self : eml_array) (value : f32) : res (eml_error * eml_array) :=
  if negb (ar_n_dims self =? 2) then Ret (EmlUnsupported, self)
  else if negb (ar_value_size self =? 2) then Ret (EmlUnsupported, self)
  else
    let* d0 := zget (ar_dims self) 0 in
    let* d1 := zget (ar_dims self) 1 in
    let* s := foldM (fun s i => foldM (fun s j =>
        let* p := eml_array_data_2d s i j in
        match p with
        | None => Err NullDeref
        | Some o =>
            let* v := f32_to_i16 value in
            let* data := store16 (ar_data s) o v in
            Ret (with_data s data)
        end) s (zrange d1)) self (zrange d0) in
    Ret (EmlOk, s).

(** eml_array.h:130-147  eml_array_sum *)
Definition eml_array_sum (self : eml_array) (out : f32) : res (eml_error * f32) :=
  if negb (ar_n_dims self =? 2) then Ret (EmlUnsupported, out)
  else if negb (ar_value_size self =? 2) then Ret (EmlUnsupported, out)
  else
    let* d0 := zget (ar_dims self) 0 in
    let* d1 := zget (ar_dims self) 1 in
    let* sum := foldM (fun sum i => foldM (fun sum j =>
        let* p := eml_array_data_2d self i j in
        match p with
        | None => Err NullDeref
        | Some o => let* v := load16 (ar_data self) o in Ret (fadd sum (f_of_Z v))
        end) sum (zrange d1)) fzero (zrange d0) in
    Ret (EmlOk, sum).

(** eml_array.h:157-196  eml_array_shift_rows *)
Definition eml_array_shift_rows (self : eml_array) (shift : Z) : res (eml_error * eml_array) :=
  let* rows := zget (ar_dims self) 1 in
  if negb (ar_n_dims self =? 2) then Ret (EmlUnsupported, self)
  else
    let* a := chk_int32 (Z.abs shift) in
    if negb (a <=? rows) then Ret (EmlSizeMismatch, self)
    else if negb (shift <=? 0) then Ret (EmlUnsupported, self)
    else
      let* d0 := zget (ar_dims self) 0 in
      let* rs := chk_int32 (ar_value_size self * d0) in
      let row_size := to_uint64 rs in
      let* (err, s) := foldM (fun '(err, s) i =>
          match err with
          | EmlOk =>
              let source_row := i - shift in
              let* target := eml_array_data_2d s 0 i in
              let* source := eml_array_data_2d s 0 source_row in
              match target, source with
              | Some t, Some o =>
                  let* data := memcpy1 (ar_data s) t o row_size in Ret (EmlOk, with_data s data)
              | _, _ => Ret (EmlPostconditionFailed, s)
              end
          | e => Ret (e, s)
          end) (EmlOk, self) (zrange (rows + shift)) in
      Ret (err, s).

(** eml_array.h:198-237  eml_array_copy_rows ([other] is a different buffer) *)
Definition eml_array_copy_rows (self : eml_array) (start : Z) (other : eml_array)
  : res (eml_error * eml_array) :=
  if negb (ar_n_dims self =? 2) then Ret (EmlUnsupported, self)
  else if negb (ar_n_dims other =? 2) then Ret (EmlUnsupported, self)
  else if negb (0 <=? start) then Ret (EmlUnsupported, self)
  else
    let* s0 := zget (ar_dims self) 0 in
    let* o0 := zget (ar_dims other) 0 in
    if negb (o0 =? s0) then Ret (EmlSizeMismatch, self)
    else
      let* s1 := zget (ar_dims self) 1 in
      let* o1 := zget (ar_dims other) 1 in
      let* last := chk_int32 (start + o1) in
      if negb (last <=? s1) then Ret (EmlSizeMismatch, self)
      else
        let* rs := chk_int32 (ar_value_size self * s0) in
        let row_size := to_uint64 rs in
        let* (err, s) := foldM (fun '(err, s) i =>
            match err with
            | EmlOk =>
                let target_row := i + start in
                let* target := eml_array_data_2d s 0 target_row in
                let* source := eml_array_data_2d other 0 i in
                match target, source with
                | Some t, Some o =>
                    let* data := memcpy2 (ar_data s) t (ar_data other) o row_size in
                    Ret (EmlOk, with_data s data)
                | _, _ => Ret (EmlPostconditionFailed, s)
                end
            | e => Ret (e, s)
            end) (EmlOk, self) (zrange o1) in
        Ret (err, s).
