A='Model/Array.v'; C='Model/Csv.v'; V='Model/Vector.v'
M=[
(A,"if negb (col <? d0) then Ret None","if negb (col <=? d0) then Ret None","col = columns is accepted","C22"),
(A,"else if negb (0 <=? row) then Ret None","else if negb (0 <=? col) then Ret None","a negative row is accepted","C22"),
(A,"let* m := chk_int32 (row * d0) in","let* m := chk_int32 (row * d1) in","stride is rows instead of columns","C22,C23,C24"),
(A,"if negb (buffer_needed <=? buffer_length)","if negb (buffer_needed <=? buffer_length + value_size)","a buffer one element too short is accepted","C22"),
(A,"Ret (to_uint64 total).","Ret (to_uint64 product).","size computed without the element size","C22"),
(A,"let source_row := i - shift in","let source_row := i - shift - 1 in","rows move by one less","C23,C25"),
(A,"(zrange (rows + shift)) in\n      Ret (err, s).","(zrange (rows + shift - 1)) in\n      Ret (err, s).","last row is not moved","C23,C25"),
(A,"if negb (a <=? rows) then Ret (EmlSizeMismatch, self)","if negb (a <? rows) then Ret (EmlSizeMismatch, self)","shifting by all rows is rejected","C23,C25"),
(A,"else if negb (shift <=? 0) then Ret (EmlUnsupported, self)","else if negb (shift <=? 0) then Ret (EmlOk, self)","a positive shift does nothing but returns EmlOk","C23"),
(A,"let target_row := i + start in","let target_row := i in","copies always to the first rows","C24,C25"),
(A,"if negb (last <=? s1) then","if negb (last <=? s1 + 1) then","one row too many accepted","C24"),
(A,"else if negb (0 <=? start) then Ret (EmlUnsupported, self)","else if negb (-1 <=? start) then Ret (EmlUnsupported, self)","start -1 accepted","C24"),
(A,"if negb (o0 =? s0) then","if negb (o0 <=? s0) then","narrower source accepted","C24"),
(V,"if v_length dest <? final_dest then","if v_length dest <=? final_dest then","copy to the very end rejected","C52"),
(V,"else if location <? 0 then Ret (-2, d)","else if location <? -1 then Ret (-2, d)","location -1 accepted","C52"),
(V,"(zrange (final_dest - location)) in","(zrange final_dest) in","copies too many values","C52"),
(V,"Ret (mk_vec (v_start orig + start) length).","Ret (mk_vec (v_start orig) length).","view ignores its start","C52"),
(C,"let is_last := i =? data_length - 1 in\n      Ret (if","let is_last := i =? data_length in\n      Ret (if","delimiter after the last column name","C26"),
(C,"let is_last := i =? data_length - 1 in\n              Ret (EmlOk","let is_last := i =? data_length in\n              Ret (EmlOk","delimiter after the last value","C26,C54"),
(C,"if EML_CSV_FLOAT_MAXSIZE <=? zlen text then","if EML_CSV_FLOAT_MAXSIZE <=? zlen text + 1 then","19-character values rejected","C26,C54"),
(C,"if negb (n_columns =? data_length) then","if negb (data_length <=? n_columns) then","shorter rows accepted","C54"),
(C,"(mk_scan b (sc_columns s ++ [sc_start s]) next next)","(mk_scan b (sc_columns s ++ [sc_start s]) offset next)","column pointer at the delimiter","C26,C27,C55"),
(C,"let* b := zset (sc_buffer s) offset NUL in\n          Ret (Scanned (mk_scan b","let* b := zset (sc_buffer s) offset EOL in\n          Ret (Scanned (mk_scan b","last column not terminated","C26,C27,C55"),
(C,"let location := characters_read + 1 in","let location := characters_read in","header newline read as data","C26,C55"),
(C,"let location := cr_location r1 + characters_read + 1 in","let location := characters_read + 1 in","second row read again and again","C26,C27"),
(C,"if columns_length <=? column_idx then","if columns_length <=? column_idx + 1 then","one column slot unused","C26,C27,C55"),
(C,"else if negb (columns_read =? cr_n_columns r1) then","else if negb (columns_read <=? cr_n_columns r1) then","short rows accepted","C27"),
(C,"if characters_read =? 0 then Ret (0, r1, buf, cols)","if characters_read <=? 1 then Ret (0, r1, buf, cols)","one-character line taken for the end","C27"),
]
