(** CSV: properties C26, C27, C54, C55. *)
From Coq Require Import ZArith List Bool Lia.
From Verif.Base Require Import Res CInt ListX Loops.
From Verif.Model Require Import Common Csv.
From Verif.Spec Require Import CsvTextSpec CsvSession.
From Verif.Proof Require Import Csv.
Import ListNotations.
Open Scope Z_scope.
Open Scope res_scope.

(** ** C26: what is written is read back *)
(** [fmt] is the text of a number. The reader starts at the beginning of the stream, whatever its
    fields held; each read may use another buffer and columns array. *)
Theorem C26_round_trip {F} (fmt : F -> list Z) names rows n0 loc0 hbuffer hcolumns calls :
  names <> [] -> zlen names < 2 ^ 31 -> Forall plain names ->
  Forall (fun row => zlen row = zlen names /\
                     Forall (fun x => fmt x <> [] /\ plain (fmt x) /\ zlen (fmt x) < 20) row) rows ->
  zlen (line names) <= zlen hbuffer < 2 ^ 31 -> zlen names <= hcolumns ->
  length calls = S (length rows) ->
  Forall (fun c => zlen names <= snd c /\ zlen (fst c) < 2 ^ 31 /\
                   Forall (fun row => zlen (line (map fmt row)) <= zlen (fst c)) rows) calls ->
  exists text reader buf cols,
    write_file fmt names rows = Ret (Some text) /\
    eml_csv_reader_read_header (mk_reader n0 loc0 text 0) hbuffer (zlen hbuffer) hcolumns
      = Ret (EmlOk, reader, buf, cols) /\
    map (c_string buf) cols = names /\
    read_session reader calls = Ret (map (fun row => (zlen names, map fmt row)) rows ++ [(0, [])]).
Proof.
  intros Hne Hn Hp Hr Hb Hc Hl Hcalls.
  exists (csv_text names (map (map fmt) rows)).
  destruct (read_header_ok names (map (map fmt) rows) n0 loc0 hbuffer (zlen hbuffer) hcolumns Hne Hp ltac:(lia) ltac:(lia) Hc) as (buf & cols & E & M).
  do 3 eexists. split; [|split; [exact E|split; [exact M|]]].
  - apply write_file_ok; auto. eapply Forall_impl; [|exact Hr]. intros row [L Q]. split; [auto|].
    eapply Forall_impl; [|exact Q]. intros x (_ & _ & H). exact H.
  - unfold csv_text. rewrite (read_session_ok (zlen names) (map (map fmt) rows) (line names) calls).
    + rewrite map_map. reflexivity.
    + rewrite Forall_map. eapply Forall_impl; [|exact Hr]. intros row [L Q].
      rewrite zlen_map. split; [auto|].
      assert (row <> []). { intros ->. destruct names; [congruence|]. unfold zlen in L. simpl in L. lia. }
      destruct row as [|x row]; [congruence|]. inversion Q as [|? ? (Q1 & Q2 & Q3) Q4]; subst.
      split; [discriminate|]. split.
      * cbn [map]. intros J. apply Q1. destruct row; simpl in J; [exact J|]. apply app_eq_nil in J as [J _]. exact J.
      * rewrite Forall_map. eapply Forall_impl; [|exact Q]. intros y (_ & Hy & _). exact Hy.
    + now rewrite map_length.
    + eapply Forall_impl; [|exact Hcalls]. intros c (C1 & C2 & C3). split; [auto|]. split; [auto|]. rewrite Forall_map. exact C3.
    + apply zlen_nonneg.
Qed.
(** Two columns "a","bc"; numbers are written by a one- or two-digit printer. *)
Definition digits (x : Z) : list Z := if x <? 10 then [48 + x] else [48 + x / 10; 48 + x mod 10].
Example C26_instance :
  let text := [97; 44; 98; 99; 10; 49; 44; 50; 51; 10; 52; 53; 44; 54; 10] in
  write_file digits [[97]; [98; 99]] [[1; 23]; [45; 6]] = Ret (Some text) /\
  (let* (e, reader, buf, cols) := eml_csv_reader_read_header (mk_reader 7 9 text 0) (repeat 1 8) 8 2 in
   let* rows := read_session reader [(repeat 2 6, 2); (repeat 3 5, 4); (repeat 3 5, 2)] in
   Ret (e, map (c_string buf) cols, rows))
  = Ret (EmlOk, [[97]; [98; 99]], [(2, [[49]; [50; 51]]); (2, [[52; 53]; [54]]); (0, [])]).
Proof. split; vm_compute; reflexivity. Qed.

(** ** C27: return values of read_data *)
(** When the columns array is large enough: negative or 0 or the number of columns; 0 exactly at the
    end of the stream or on an empty line; a positive value only when the first line of what was
    read has that many closed fields, which are then what the columns array points to, and the
    reader moves to the next line; a whole line with the right number of fields is always accepted. *)
Theorem C27_read_result_partial r buffer bl cl : 0 <= bl < 2 ^ 31 -> bl <= zlen buffer ->
  1 <= cr_n_columns r <= cl ->
  exists v r' buf cols, eml_csv_reader_read_data r buffer bl cl = Ret (v, r', buf, cols) /\
    let chunk := firstn (Z.to_nat bl) (skipn (Z.to_nat (cr_pos r)) (cr_stream r)) in
    let fields := closed_fields [] chunk in
    (v = 0 \/ v < 0 \/ v = cr_n_columns r) /\
    (v = 0 <-> (chunk = [] \/ exists rest, chunk = newline :: rest)) /\
    (0 < v -> zlen fields = v /\ map (c_string buf) cols = map until_nul fields /\
              cr_location r' = cr_location r + line_length chunk + 1 /\ cr_pos r' = cr_location r' /\
              cr_stream r' = cr_stream r /\ cr_n_columns r' = cr_n_columns r) /\
    (zlen fields = cr_n_columns r -> In newline chunk -> line_length chunk <> 0 -> v = cr_n_columns r).
Proof. exact (read_data_any r buffer bl cl). Qed.
(** The claim is false of the code: a too small columns array gives +1, ... *)
Theorem C27_small_columns_refuted r buffer bl cl : cl < cr_n_columns r ->
  eml_csv_reader_read_data r buffer bl cl = Ret (1, r, buffer, []).
Proof.
  intros H. unfold eml_csv_reader_read_data. destruct (Z.leb_spec (cr_n_columns r) cl); [lia|]. reflexivity.
Qed.
(** ... a blank line gives 0 in the middle of a stream, and at the next call the reader is at the
    end of what it had read, ... *)
Theorem C27_blank_line_refuted : exists r buffer r' buf cols,
  eml_csv_reader_read_data r buffer 8 2 = Ret (0, r', buf, cols) /\
  skipn (Z.to_nat (cr_pos r)) (cr_stream r) = [10; 49; 44; 50; 10; 51; 44; 52; 10] /\ cr_pos r' = 8.
Proof.
  exists (mk_reader 2 0 [10; 49; 44; 50; 10; 51; 44; 52; 10] 0), (repeat 0 8),
    (mk_reader 2 0 [10; 49; 44; 50; 10; 51; 44; 52; 10] 8), [0; 49; 44; 50; 10; 51; 44; 52], [0].
  split; [vm_compute; reflexivity|]. split; reflexivity.
Qed.
(** ... and a line that is cut by the buffer is accepted with a field missing ("1,2," of
    "1,2,345" for 2 columns). *)
Theorem C27_cut_line_refuted : exists r buffer r' buf cols,
  eml_csv_reader_read_data r buffer 6 3 = Ret (2, r', buf, cols) /\
  cr_stream r = [49; 44; 50; 44; 51; 52; 53; 10] /\ cr_n_columns r = 2 /\
  map (c_string buf) cols = [[49]; [50]].
Proof.
  exists (mk_reader 2 0 [49; 44; 50; 44; 51; 52; 53; 10] 0), (repeat 0 6),
    (mk_reader 2 7 [49; 44; 50; 44; 51; 52; 53; 10] 7), [49; 0; 50; 0; 51; 52], [0; 2].
  split; [vm_compute; reflexivity|]. split; [reflexivity|]. split; reflexivity.
Qed.
Example C27_instance :
  (let* (v, r', buf, cols) :=
     eml_csv_reader_read_data (mk_reader 2 0 [49; 44; 50; 10; 51; 44; 52; 10] 0) (repeat 0 6) 6 2 in
   Ret (v, cr_pos r', map (c_string buf) cols)) = Ret (2, 4, [[49]; [50]]).
Proof. vm_compute. reflexivity. Qed.

(** ** C54: write_data writes a whole row or nothing *)
(** Writing succeeds, appending exactly one line, when every number's text has fewer than 20
    characters; a wrong number of values writes nothing. *)
Theorem C54_write_data_partial {F} (fmt : F -> list Z) n stream row : Forall (fun x => zlen (fmt x) < 20) row ->
  eml_csv_writer_write_data fmt n stream row (zlen row)
  = Ret (if n =? zlen row then (EmlOk, stream ++ line (map fmt row)) else (EmlSizeMismatch, stream)).
Proof.
  intros H. destruct (Z.eqb_spec n (zlen row)) as [E|E].
  - apply write_data_ok; auto.
  - unfold eml_csv_writer_write_data. destruct (Z.eqb_spec n (zlen row)); [congruence|]. reflexivity.
Qed.
(** Missing: longer texts (such as 1e13 with "%.6f"). The fields before the first one that is too
    long stay in the stream, without a newline. *)
Theorem C54_write_data_refuted {F} (fmt : F -> list Z) n stream row k x :
  zlen row = n -> zget row k = Ret x -> 20 <= zlen (fmt x) ->
  (forall j y, j < k -> zget row j = Ret y -> zlen (fmt y) < 20) ->
  eml_csv_writer_write_data fmt n stream row (zlen row)
  = Ret (EmlUnsupported, stream ++ concat (map (fun y => fmt y ++ [comma]) (firstn (Z.to_nat k) row))).
Proof. exact (write_data_too_long fmt n stream row k x). Qed.
Example C54_instance :
  eml_csv_writer_write_data (fun x => if x <? 100 then digits x else repeat 57 20) 2 [] [12; 3] 2 = Ret (EmlOk, [49; 50; 44; 51; 10]) /\
  eml_csv_writer_write_data (fun x => if x <? 100 then digits x else repeat 57 20) 2 [] [12; 1000] 2
  = Ret (EmlUnsupported, [49; 50; 44]).
Proof. split; vm_compute; reflexivity. Qed.

(** ** C55: reading a header *)
(** A header line that fits the buffer, with at most columns_length names, is read completely and
    the reader continues after it. *)
Theorem C55_header_partial names rows n loc buffer bl cl :
  names <> [] -> Forall plain names -> zlen (line names) <= bl < 2 ^ 31 -> bl <= zlen buffer -> zlen names <= cl ->
  exists buf cols,
    eml_csv_reader_read_header (mk_reader n loc (csv_text names rows) 0) buffer bl cl
    = Ret (EmlOk, mk_reader (zlen names) (zlen (line names)) (csv_text names rows) (zlen (line names)), buf, cols) /\
    map (c_string buf) cols = names.
Proof. exact (read_header_ok names rows n loc buffer bl cl). Qed.
(** Missing: an error when the header does not fit the buffer. EmlOk is returned, the last names
    are dropped, and the data is taken to start inside the header ("abc,de\n", 5 bytes). *)
Theorem C55_header_refuted : exists r' buf cols,
  eml_csv_reader_read_header (mk_reader 0 0 [97; 98; 99; 44; 100; 101; 10] 0) (repeat 0 5) 5 4 = Ret (EmlOk, r', buf, cols) /\
  cr_n_columns r' = 1 /\ map (c_string buf) cols = [[97; 98; 99]] /\
  skipn (Z.to_nat (cr_pos r')) (cr_stream r') = [10].
Proof.
  exists (mk_reader 1 6 [97; 98; 99; 44; 100; 101; 10] 6), [97; 98; 99; 0; 100], [0].
  split; [vm_compute; reflexivity|]. split; [reflexivity|]. split; reflexivity.
Qed.
Example C55_instance :
  (let* (e, r', buf, cols) :=
     eml_csv_reader_read_header (mk_reader 0 0 (csv_text [[97; 98]; [99]] [[[49]; [50]]]) 0) (repeat 0 9) 9 2 in
   Ret (e, cr_pos r', map (c_string buf) cols)) = Ret (EmlOk, 5, [[97; 98]; [99]]).
Proof. vm_compute. reflexivity. Qed.
