F='Model/SaveNetText.v'
M=[
 (F,'fmt_int layer_no ++ txt "_" ++ variable','fmt_int (layer_no + 1) ++ txt "_" ++ variable','layer_name: numbered from one everywhere (consistent names: the claim still holds)','C149'),
 (F,'fmt_int layer_no ++ txt "_" ++ variable','txt "_" ++ variable','layer_name: no number, one name for all layers','C149'),
 (F,'let weight_values := concat (py_weights f64_arith l) in','let weight_values := rev (concat (py_weights f64_arith l)) in','layer_arrays: weights reversed','C149'),
 (F,'(txt "float") (txt "static const") biases [] []','(txt "float") (txt "static const") (rev biases) [] []','layer_arrays: biases reversed','C149'),
 (F,'(layer_name prefix layer_no (txt "biases")) None','(layer_name prefix layer_no (txt "weights")) None','layer_arrays: biases under the name of the weights','C149'),
 (F,'(layer_name prefix layer_no (txt "biases")) None (Some (zlen biases))\n    (txt "float")','(layer_name prefix layer_no (txt "biases")) None (Some (zlen biases))\n    (txt "int")','layer_arrays: biases declared int','C149'),
 (F,'(Some (py_n_in f64_arith l * py_n_out f64_arith l))','(Some (py_n_in f64_arith l * py_n_in f64_arith l))','layer_arrays: size n_in*n_in','C149'),
 (F,'fmt_int (py_n_out f64_arith l); fmt_int (py_n_in f64_arith l);','fmt_int (py_n_in f64_arith l); fmt_int (py_n_out f64_arith l);','layer_row: sizes swapped','C149'),
 (F,'    layer_name prefix layer_no (txt "weights"); layer_name prefix layer_no (txt "biases"); txt activation_func]','    layer_name prefix layer_no (txt "biases"); layer_name prefix layer_no (txt "weights"); txt activation_func]','layer_row: weights and biases swapped','C149'),
 (F,'txt "biases"); txt activation_func]','txt "biases"); txt "EmlNetActivationRelu"]','layer_row: always Relu','C149'),
 (F,'layer_name prefix layer_no (txt "weights"); layer_name','layer_name prefix 0 (txt "weights"); layer_name','layer_row: weights of the first layer','C149'),
 (F,'txt "[" ++ fmt_int size ++ txt "]" ++\n','txt "[" ++ fmt_int (size - 1) ++ txt "]" ++\n','array_declare_texts: size one too small','C149'),
 (F,'[fmt_int n_layers; layers_name; buf1_name; buf2_name; fmt_int buf_length]','[fmt_int n_layers; layers_name; buf1_name; buf1_name; fmt_int buf_length]','init_net: one buffer twice','C149'),
 (F,'[fmt_int n_layers; layers_name; buf1_name; buf2_name; fmt_int buf_length]','[fmt_int buf_length; layers_name; buf1_name; buf2_name; fmt_int n_layers]','init_net: number of layers and buffer length swapped','C149'),
 (F,'txt "static EmlNet " ++ name','txt "EmlNet " ++ name','init_net: not static','C149'),
 (F,'return eml_net_predict(&" ++','return eml_net_regress(&" ++','net_predict_function: calls regress','C149'),
 (F,'return eml_net_predict(&" ++','return eml_net_predict(" ++','net_predict_function: no &','C149'),
 (F,'features, n_features, out, out_length);','features, n_features, out, n_features);','net_regress_function: wrong out_length','C149'),
 (F,'return eml_net_regress1(&" ++ name ++ txt ", features, n_features);','return eml_net_regress1(&" ++ name ++ txt ", n_features, features);','net_regress1_function: arguments swapped','C149'),
 (F,'"_predict(const float *features, int32_t n_features)','"_predict(const int16_t *features, int32_t n_features)','net_predict_function: int16_t features','C149'),
 (F,'array_declare no_str buf2_name (Some buffer_size)','array_declare no_str buf2_name (Some (buffer_size - 1))','net_text: second buffer too short','C149'),
 (F,'array_declare no_str buf1_name (Some buffer_size) (txt "float")','array_declare no_str buf1_name (Some buffer_size) (txt "double")','net_text: buffer of double','C149'),
 (F,'init_net prefix n_layers layers_name buf1_name buf2_name buffer_size','init_net prefix n_layers layers_name buf1_name buf2_name (buffer_size + 1)','net_text: buf_length one too large','C149'),
 (F,'concat layer_lines ++ [buf1; buf2; layers_arr; net]','[buf1; buf2; layers_arr; net] ++ concat layer_lines','net_text: arrays after their use','C149'),
 (F,'  do* assert_valid_identifier prefix;\n','','net_text: name not checked','C149,C146'),
 (F,'[net_predict_function prefix; net_regress_function prefix; net_regress1_function prefix]','[net_predict_function prefix; net_regress_function prefix]','net_text: regress1 left out','C149'),
]
