(** Model of the compiled test program (emlearn/eml_test.h and the code in common.py:build_classifier) and of
    the Python side that feeds it (common.py:run_classifier, CompiledClassifier). Text is the list of its
    character codes; X is a matrix of float64 values (float32 and integer matrices print as the float64 of the
    same value). Compiling and starting the program is not modelled. *)
From Coq Require Import String ZArith List Bool.
From Flocq Require Import Core BinarySingleNaN.
From Verif.Base Require Import Res CInt Float.
From Verif.Model Require Import Common Text TreesC Cgen.
Import ListNotations.
Open Scope Z_scope.
Open Scope res_scope.

(** eml_test.h:15-20 *)
Definition EML_CSV_BUFFER_LENGTH : Z := 2048.
Definition EML_CSV_VALUES_LENGTH : Z := 256.

(** What fgets takes from the stream: at most n characters, up to and including the first newline. *)
Fixpoint take_line (n : nat) (s : text) : text * text :=
  match n, s with
  | O, _ => ([], s)
  | _, [] => ([], [])
  | S n', c :: s' => if c =? 10 then ([c], s') else let '(l, r) := take_line n' s' in (c :: l, r)
  end.
(** fgets(buffer, n, fp): NULL at the end of the stream (no NUL characters in the stream). *)
Definition fgets (n : Z) (s : text) : option (text * text) :=
  match s with [] => None | _ => Some (take_line (Z.to_nat (n - 1)) s) end.
(** The tokens strtok(buffer, ",;") gives one after the other. *)
Definition is_sep (c : Z) : bool := (c =? 44) || (c =? 59).
Definition strtok_tokens (buffer : text) : list text :=
  filter (fun t => match t with [] => false | _ => true end) (split_on is_sep buffer).
(** sscanf(token, "%f", &value): None when nothing is converted. Text with exponents, hexadecimal digits, inf
    or nan, which does not occur here, is left out. *)
Definition sscanf_f (token : text) : option f32 :=
  match scan_decimal token with Some (s, n, k, _) => Some (f_of_dec s n k) | None => None end.

(** eml_test.h:36-48: the while loop. The array may hold values never assigned (None). *)
Fixpoint parse_tokens (tokens : list text) (field_no : Z) (values : list (option f32)) (values_length : Z)
    : res (eml_error * list (option f32) * Z) :=
  match tokens with
  | [] => Ret (EmlOk, values, field_no)
  | token :: tokens' =>
      let value := sscanf_f token in
      if values_length <=? field_no then Ret (EmlSizeMismatch, values, field_no)
      else
        let* v := match value with Some v => Ret v | None => Err Uninitialised end in
        let* values := zset values field_no (Some v) in
        let* field_no := chk_int32 (field_no + 1) in
        parse_tokens tokens' field_no values values_length
  end.
(** eml_test.h:25-55  eml_test_parse_csv_line *)
Definition eml_test_parse_csv_line (buffer : text) (values : list (option f32)) (values_length : Z)
    : res (eml_error * list (option f32) * Z) :=
  parse_tokens (strtok_tokens buffer) 0 values values_length.

(** One call of the row callback: the values array, the number of values, the row number. *)
Definition call : Type := list (option f32) * Z * Z.
(** eml_test.h:63-71: the while loop; returns the calls made. *)
Fixpoint read_loop (fuel : nat) (fp : text) (values : list (option f32)) (row_no : Z) : res (eml_error * list call) :=
  match fuel with
  | O => Err NoFuel
  | S fuel' =>
      match fgets EML_CSV_BUFFER_LENGTH fp with
      | None => Ret (EmlOk, [])
      | Some (buffer, fp) =>
          let* (e, values, value_no) := eml_test_parse_csv_line buffer values EML_CSV_VALUES_LENGTH in
          match e with
          | EmlOk =>
              let* next := chk_int32 (row_no + 1) in
              let* (e', calls) := read_loop fuel' fp values next in
              Ret (e', (values, value_no, row_no) :: calls)
          | _ => Ret (e, [])
          end
      end
  end.
(** eml_test.h:57-72  eml_test_read_csv *)
Definition eml_test_read_csv (fp : text) : res (eml_error * list call) :=
  read_loop (S (length fp)) fp (repeat None (Z.to_nat EML_CSV_VALUES_LENGTH)) 0.

(** common.py:92-104: the program for predict. [func values length] is the value of (double){func}. *)
Definition classify_program (func : list (option f32) -> Z -> res f64) (stdin : text) : res text :=
  let* (_, calls) := eml_test_read_csv stdin in
  let* out := mapM (fun '(values, length, row) =>
      let* y := func values length in
      Ret (fmt_int row ++ txt "," ++ fmt_fixed 6 y ++ [10])) calls in
  Ret (concat out).
(** common.py:73-90: the program for predict_proba. [func outputs values length] is the content of the global
    array outputs after {func}; it starts as zeros. *)
Definition proba_program (func : list f32 -> list (option f32) -> Z -> res (list f32)) (n_classes : Z) (stdin : text) : res text :=
  let* (_, calls) := eml_test_read_csv stdin in
  let* (out, _) := foldM (fun '(out, outputs) '(values, length, row) =>
      let* outputs := func outputs values length in
      let* lines := mapM (fun class_no =>
          let* prob := zget outputs class_no in
          Ret (fmt_int row ++ txt "," ++ fmt_int class_no ++ txt "," ++ fmt_fixed 6 prob ++ [10])) (zrange n_classes) in
      Ret (out ++ concat lines, outputs)) ([], repeat fzero (Z.to_nat n_classes)) calls in
  Ret out.

(** common.py:123-131: the text sent to the program. *)
Definition serialize_row (row : list f64) : text := join_with (txt ",") (map (fmt_fixed 8) row).
Definition serialize (data : list (list f64)) : text := join_with [10] (map serialize_row data).

(** float(s) of the texts the program prints. *)
Definition py_float_of_text (s : text) : res f64 :=
  if text_eqb s (txt "inf") then Ret (B754_infinity false)
  else if text_eqb s (txt "-inf") then Ret (B754_infinity true)
  else if text_eqb s (txt "nan") then Ret B754_nan
  else match scan_decimal s with Some (b, n, k, []) => Ret (f_of_dec b n k) | _ => Err ValueError_ end.
(** int(s) of a text of digits. *)
Definition py_int_of_text (s : text) : res Z :=
  match scan_decimal s with Some (b, n, k, []) => if k =? 0 then Ret (if b then - n else n) else Err ValueError_ | _ => Err ValueError_ end.
Definition nonempty_lines (out : text) : list text :=
  filter (fun t => match t with [] => false | _ => true end) (split_on (Z.eqb 10) out).

(** common.py:148-151  conversion of the second token; other numbers of tokens do not reach it as text. *)
Inductive out_dtype : Type := OutInt | OutFloat.
Definition convert_out (dt : out_dtype) (t : text) : res pynum :=
  let* x := py_float_of_text t in
  match dt with OutInt => let* z := py_int (PyFloat x) in Ret (PyInt z) | OutFloat => Ret (PyFloat x) end.
(** common.py:121-158  run_classifier for out_dtype 'int' and 'float' *)
Definition run_classifier (program : text -> res text) (data : list (list f64)) (dt : out_dtype) : res (list pynum) :=
  let* out := program (serialize data) in
  mapM (fun line =>
      match split_on (Z.eqb 44) line with
      | [_; t] => convert_out dt t
      | _ => Err TypeError_
      end) (nonempty_lines out).
(** common.py:26-29  sklearn's check_array on a 2-D matrix: at least one row and column, no NaN or infinity. *)
Definition check_array (X : list (list f64)) : res unit :=
  if match X with [] => true | _ => false end || existsb (fun r => match r with [] => true | _ => false end) X
     || existsb (fun r => existsb (fun v => negb (is_finite v)) r) X
  then Err ValueError_ else Ret tt.
(** common.py:182-187  CompiledClassifier.predict; regress (common.py:207-210) calls it. *)
Definition predict (func : list (option f32) -> Z -> res f64) (dt : out_dtype) (X : list (list f64)) : res (list pynum) :=
  do* check_array X;
  let* out := run_classifier (classify_program func) X dt in
  do* py_assert (zlen out =? zlen X);
  Ret out.

(** common.py:189-205  CompiledClassifier.predict_proba. Entries of numpy.empty never assigned are None;
    indices are never negative here. *)
Definition predict_proba (func : list f32 -> list (option f32) -> Z -> res (list f32)) (n_classes : Z)
    (X : list (list f64)) : res (list (list (option f64))) :=
  do* check_array X;
  let* out := proba_program func n_classes (serialize X) in
  let* result := mapM (fun line =>
      match split_on (Z.eqb 44) line with
      | [row; cls; prob] =>
          let* row := py_int_of_text row in
          let* cls := py_int_of_text cls in
          let* prob := py_float_of_text prob in
          Ret (row, cls, prob)
      | _ => Err TypeError_
      end) (nonempty_lines out) in
  let empty := repeat (repeat None (Z.to_nat n_classes)) (length X) in
  foldM (fun m '(row, cls, prob) =>
      if (row <? zlen X) && (cls <? n_classes) then
        let* r := zget m row in
        let* r := zset r cls (Some prob) in
        zset m row r
      else Err IndexError_) empty result.
