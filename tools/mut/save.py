F='Model/SaveText.v'
A='Model/SaveApi.v'
M=[
 (F,'''txt "if (features[" ++ fmt_int feature ++ txt "] < " ++ value ++''','''txt "if (features[" ++ fmt_int feature ++ txt "] <= " ++ value ++''','c_internal_text: <= instead of <','C142'),
 (F,'''") {
        " ++ l ++ txt "
        " ++ spaces (depth * indent) ++ txt "} else {
        " ++ r ++''','''") {
        " ++ r ++ txt "
        " ++ spaces (depth * indent) ++ txt "} else {
        " ++ l ++''','c_internal_text: branches swapped','C142'),
 (F,'''fmt_int feature ++ txt "] < "''','''fmt_int (feature + 1) ++ txt "] < "''','c_internal_text: next feature tested','C142'),
 (F,'''let leaf_idx := - idx - 1 in
        let* value := leaf leaf_idx''','''let leaf_idx := - idx in
        let* value := leaf leaf_idx''','c_node_text: leaf number off by one','C142'),
 (F,'''txt "return " ++ value ++ txt ";"''','''txt "return " ++ value''','c_leaf_text: no semicolon','C142'),
 (F,'''let* z := leaf_int l in constant no_str (PyInt z) (txt "int")
  else''','''let* z := leaf_int l in constant no_str (PyInt (z + 1)) (txt "int")
  else''','leaf_text: class number off by one','C142'),
 (F,'''c_node_text leaf dtype fuel' nodes (d_right n) (depth + 2)''','''c_node_text leaf dtype fuel' nodes (d_left n) (depth + 2)''','c_node_text: left child written twice','C142'),
 (F,'''(combine tree_names roots) in''','''(combine tree_names (rev roots)) in''','inline_text: trees in the wrong order','C142'),
 (F,'''(if leaf_bits =? 0 then [] else [lcode]) ++ forest_funcs''','''[lcode] ++ forest_funcs''','inline_text: leaf table always written','C141'),
 (F,'''    if classifier then [forest_classifier_func] ++ (if include_proba then [forest_proba_func] else [])
    else [forest_regressor_func''','''    if classifier then [forest_classifier_func] ++ (if include_proba then [forest_proba_func] else [forest_proba_func])
    else [forest_regressor_func''','inline_text: include_proba ignored','C141'),
 (F,'''Definition forest_proba_majority_func (name ctype : text) (n_trees : Z) (tree_predictions : text) : text :=
  let function_name := name ++ txt "_predict_proba" in''','''Definition forest_proba_majority_func (name ctype : text) (n_trees : Z) (tree_predictions : text) : text :=
  let function_name := name ++ txt "_predict" in''','forest_proba_majority_func: defines NAME_predict again','C141'),
 (F,'''Definition votes (line : text -> text) (tree_names : list text) : text := join_with (txt "
    ") (map line tree_names).''','''Definition votes (line : text -> text) (tree_names : list text) : text := join_with (txt "
    ") (map line (tl tree_names)).''','votes: first tree left out','C141'),
 (F,'''name ++ txt "_tree_" ++ fmt_int i.''','''name ++ txt "_tree_" ++ fmt_int (i / 10).''','tree_name: last digit of the tree number dropped','C141'),
 (F,'''let* l := encode_child index (d_left n) in
  let* r := encode_child index (d_right n) in
  let* value := constant''','''let* l := encode_child index (d_right n) in
  let* r := encode_child index (d_left n) in
  let* value := constant''','make_node_text: children swapped','C143'),
 (F,'''txt "{ " ++ fmt_int (d_feature n) ++ txt ", " ++ value ++''','''txt "{ " ++ value ++ txt ", " ++ fmt_int (d_feature n) ++''','make_node_text: feature and value swapped','C143'),
 (F,'''else 8 in
  let struct''','''else leaf_bits in
  let struct''','loadable_text: tree_leaf_bits not 8','C143'),
 (F,'''        " ++ fmt_int nodes_length ++ txt ",
        (EmlTreesNode *)(" ++ nodes_name''','''        " ++ fmt_int tree_roots_length ++ txt ",
        (EmlTreesNode *)(" ++ nodes_name''','forest_struct: number of nodes wrong','C143'),
 (F,'''        " ++ fmt_int n_features ++ txt ",
        " ++ fmt_int n_classes ++ txt ",
    };"''','''        " ++ fmt_int n_classes ++ txt ",
        " ++ fmt_int n_features ++ txt ",
    };"''','forest_struct: features and classes swapped','C143'),
 (F,'''const int out = eml_trees_predict(&" ++ name ++ txt ", features, features_length);''','''const int out = eml_trees_predict(&" ++ name ++ txt ", features_length, features);''','loadable_forest_classifier_func: arguments swapped','C143'),
 (F,'''const float out = eml_trees_regress1(&''','''const float out = eml_trees_predict(&''','loadable_forest_regressor_func: calls predict','C143'),
 (F,'''(Some [fmt_int n_features; fmt_int n_items;''','''(Some [fmt_int n_items; fmt_int n_features;''','neighbors_model_init: counts swapped','C144'),
 (F,'''(txt "(int16_t *)" ++ data_name) (txt "(int16_t *)" ++ labels_name)''','''(txt "(int16_t *)" ++ labels_name) (txt "(int16_t *)" ++ data_name)''','neighbors_text: arrays swapped','C144'),
 (F,'''let* l := declare_array labels_name labels in''','''let* l := declare_array labels_name (tl labels) in''','neighbors_text: first label dropped','C144'),
 (F,'''let labels_name := prefix ++ txt "_labels" in''','''let labels_name := txt "labels" in''','neighbors_text: array name without the model name','C144,C146'),
 (A,'''if writable f then (Ret code, write_file fs f code)''','''if writable f then (Ret code, write_file fs (basename f) code)''','save_code_to: writes in the current directory','C145'),
 (A,'''    | None, None => Err ValueError_
    | None, Some f => Ret (splitext (basename f))''','''    | None, None => Err ValueError_
    | None, Some f => Ret (basename f)''','save_code_to: extension kept in the name','C145'),
 (A,'''    | Some n, _ => Ret n
    | None, None => Err ValueError_
    | None, Some f => Ret (splitext (basename f))''','''    | Some n, None => Ret n
    | None, None => Err ValueError_
    | _, Some f => Ret (splitext (basename f))''','save_code_to: the file name wins over the name given','C145'),
 (A,'''if forallb (Z.eqb 46) q then p else q''','''q''','splitext: no case for hidden files (.h)','C145'),
 (A,'''match before_last_dot p' with Some q => Some (c :: q) | None => if c =? 46 then Some [] else None end''','''if c =? 46 then Some [] else match before_last_dot p' with Some q => Some (c :: q) | None => None end''','before_last_dot: first dot instead of the last','C145'),
 (A,'''else (Err RuntimeError_, fs)''','''else (Ret code, fs)''','save_code_to: failure to open is ignored','C145'),
]
