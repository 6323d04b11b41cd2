C='Model/Cgen.v'; H='Model/Harness.v'; T='Model/Text.v'
M=[
(C,'if negb (identifier_is_valid s) then Err ValueError_\n  else if','if','assert_valid_identifier: pattern not checked','C48'),
(C,'else if identifier_is_reserved s then Err ValueError_\n','','assert_valid_identifier: reserved words not checked','C48'),
(C,'class_first c || ((48 <=? c) && (c <=? 57))','class_first c','class_rest: digits not allowed','C48'),
(C,'[] => c =? 10 | _ => false end','[] => false | _ => false end','match_rest: \\Z instead of $ (claims about newline change)','C48'),
(C,'((65 <=? c) && (c <=? 90))','((65 <=? c) && (c <=? 89))','class_first: Z missing','C48'),
(C,'nullptr\n','','C23_RESERVED_WORDS: nullptr missing','C48'),
(C,'volatile\n','','C89_RESERVED_WORDS: volatile missing','C48'),
(C,'fmt_fixed 6 x ++ txt "f"','fmt_fixed 4 x ++ txt "f"','constant: four decimals','C49'),
(C,'fmt_fixed 6 x ++ txt "f"','fmt_fixed 6 x','constant: no f suffix','C49'),
(C,'let* z := py_int val in Ret (fmt_int z)','Ret (py_str val)','constant: integer types not truncated','C49,C67'),
(C,'do* py_assert (size =? zlen values);','','array_declare: size not checked','C49'),
(C,'do* py_assert (size =? zlen values);','do* py_assert (size <=? zlen values);','array_declare: size may be smaller','C49'),
(C,'join_with (txt ", ") init_values','join_with (txt " ") init_values','array_declare: no commas','C49'),
(C,'mapM (fun v => constant v dtype) values','mapM (fun v => constant v dtype) (rev values)','array_declare: reversed','C49'),
(C,'None => zlen values | Some n => n','None => zlen values + 1 | Some n => n','array_declare: default size one too large','C49'),
(C,'Ret (indent ++ modifiers ++ txt " " ++ dtype','Ret (indent ++ txt "static const" ++ txt " " ++ dtype','array_declare: modifiers ignored','C49,C68'),
(C,'Ret (txt "static const " ++ dtype ++ txt " " ++ name ++ txt " = "','Ret (txt "static const " ++ name ++ txt " " ++ dtype ++ txt " = "','constant_declare: name and type exchanged','C68'),
(C,'let* converted := mapM (fun v => from_float v (fraction_bits f)) values','let* converted := mapM (fun v => from_float v (integer_bits f)) values','array_declare_fixedpoint: wrong field','C69'),
(C,'      do* py_assert (total_bits f =? 32);\n      let* converted','      let* converted','array_declare_fixedpoint: width not checked (ctype still checks)','C69'),
(C,'(integer_bits f =? 15) && (fraction_bits f =? 16)','(integer_bits f =? 16) && (fraction_bits f =? 15)','ctype: q15 called q16','C69'),
(C,'integer_bits f + fraction_bits f + sign_bits f','integer_bits f + fraction_bits f','total_bits: sign bit not counted','C69'),
(C,'join_with (txt ", ") args','join_with (txt ", ") (tl args)','struct_init: first field dropped','C68'),
(C,'type_name ++ txt " " ++ name ++ init','name ++ txt " " ++ type_name ++ init','struct_declare: exchanged','C68'),
(H,'EML_CSV_BUFFER_LENGTH : Z := 2048','EML_CSV_BUFFER_LENGTH : Z := 1024','EML_CSV_BUFFER_LENGTH: smaller buffer','C50,C70,C71'),
(H,'EML_CSV_VALUES_LENGTH : Z := 256','EML_CSV_VALUES_LENGTH : Z := 128','EML_CSV_VALUES_LENGTH: fewer values than a line may hold','C50'),
(H,"if c =? 10 then ([c], s')","if c =? 44 then ([c], s')",'take_line: wrong delimiter','C50'),
(H,'Z.to_nat (n - 1)','Z.to_nat n','fgets: room for NUL forgotten','C70'),
(H,'(c =? 44) || (c =? 59)','(c =? 59)','is_sep: comma missing','C50'),
(H,'if values_length <=? field_no then','if values_length <? field_no then','parse_tokens: bound off by one','C50 (unreachable: lines hold at most 187 tokens)'),
(H,'let* values := zset values field_no (Some v) in','let* values := zset values 0 (Some v) in','parse_tokens: always writes field 0','C50'),
(H,'let* field_no := chk_int32 (field_no + 1) in','let* field_no := chk_int32 (field_no + 2) in','parse_tokens: skips fields','C50'),
(H,'parse_tokens (strtok_tokens buffer) 0 values','parse_tokens (strtok_tokens buffer) 1 values','eml_test_parse_csv_line: starts at field 1','C50'),
(H,"Ret (e', (values, value_no, row_no) :: calls)","Ret (e', (values, value_no, next) :: calls)",'read_loop: row number incremented before the call','C50,C71'),
(H,"Ret (e', (values, value_no, row_no) :: calls)","Ret (e', calls)",'read_loop: no call','C50,C70'),
(H,'(repeat None (Z.to_nat EML_CSV_VALUES_LENGTH)) 0.','(repeat None (Z.to_nat EML_CSV_VALUES_LENGTH)) 1.','eml_test_read_csv: rows counted from 1','C50,C71'),
(H,'Ret (fmt_int row ++ txt "," ++ fmt_fixed 6 y ++ [10])) calls','Ret (fmt_int row ++ txt "," ++ fmt_fixed 3 y ++ [10])) calls','classify_program: three decimals','C70'),
(H,'Ret (fmt_int row ++ txt "," ++ fmt_fixed 6 y ++ [10])) calls','Ret (fmt_int row ++ txt "," ++ fmt_fixed 6 y)) calls','classify_program: newline missing','C70'),
(H,'Ret (fmt_int row ++ txt "," ++ fmt_fixed 6 y ++ [10])) calls','Ret (fmt_int length ++ txt "," ++ fmt_fixed 6 y ++ [10])) calls','classify_program: length printed instead of the row (column unused by predict: no observable effect)','C70'),
(H,'fmt_int row ++ txt "," ++ fmt_int class_no','fmt_int class_no ++ txt "," ++ fmt_int row','proba_program: row and class exchanged','C71'),
(H,'let* prob := zget outputs class_no in','let* prob := zget outputs 0 in','proba_program: first probability for every class','C71'),
(H,'(zrange n_classes) in\n      Ret (out ++','(zrange (n_classes - 1)) in\n      Ret (out ++','proba_program: last class missing','C71'),
(H,'repeat fzero (Z.to_nat n_classes)','repeat fzero (Z.to_nat (n_classes - 1))','proba_program: outputs array too small','C71'),
(H,'map (fmt_fixed 8) row','map (fmt_fixed 6) row','serialize_row: six decimals','C50,C72'),
(H,'join_with (txt ",") (map','join_with (txt " ") (map','serialize_row: blanks between values','C50'),
(H,'join_with [10] (map serialize_row data)','join_with [59] (map serialize_row data)','serialize: rows separated by semicolons','C50'),
(H,'do* py_assert (zlen out =? zlen X);','','predict: number of results not checked','C70'),
(H,'do* py_assert (zlen out =? zlen X);','do* py_assert (zlen X <=? zlen out);','predict: too many results accepted','C70'),
(H,'  do* check_array X;\n  let* out := run_classifier','  let* out := run_classifier','predict: input not validated','C70'),
(H,'  do* check_array X;\n  let* out := proba_program','  let* out := proba_program','predict_proba: input not validated','C71'),
(H,'zset r cls (Some prob)','zset r row (Some prob)','predict_proba: wrong column','C71'),
(H,'zset m row r\n','zset m cls r\n','predict_proba: wrong row','C71'),
(H,'(repeat None (Z.to_nat n_classes)) (length X)','(repeat None (Z.to_nat n_classes)) (S (length X))','predict_proba: extra row','C71'),
(H,'let* z := py_int (PyFloat x) in Ret (PyInt z)','Ret (PyInt 0)','convert_out: constant result','C70'),
(H,'[_; t] => convert_out dt t','[t; _] => convert_out dt t','run_classifier: row number returned','C70'),
(T,'if d <? 2 * r then q + 1','if d <? 2 * r then q','rne_div: rounds down','C49,C50'),
(T,'48 + r mod 10]','49 + r mod 10]','pad_digits: wrong digits','C49,C50'),
(T,'if z <? 0 then 45 :: dec_digits (- z)','if z <? 0 then dec_digits (- z)','fmt_int: sign lost','C49'),
(T,'(if Bsign x then [45] else [])','[]','fmt_fixed: sign lost','C49,C50'),
(T,'dec_digits (n / 10 ^ Z.of_nat k) ++ [46] ++','dec_digits (n / 10 ^ Z.of_nat k) ++ [44] ++','fmt_fixed: decimal comma','C49,C50'),
(T,'10 * acc + (c - 48)','10 * acc + c','take_digits: digit not converted','C50'),
]
