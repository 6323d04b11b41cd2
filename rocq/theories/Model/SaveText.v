(** Model of the text of the C files written by save() of trees.Wrapper (trees.py:309-327, 350-678) and
    neighbors.Wrapper (neighbors.py:126-175). Text is the list of its character codes. *)
From Coq Require Import String ZArith List Bool.
From Flocq Require Import Core BinarySingleNaN.
From Verif.Base Require Import Res CInt Float.
From Verif.Model Require Import Common Text Cgen TreesConvert TreesC TreesInline TreesWrapper.
Import ListNotations.
Open Scope Z_scope.
Open Scope list_scope.
Open Scope res_scope.

(** n * ' ' *)
Definition spaces (n : Z) : text := repeat 32 (Z.to_nat n).
(** str() of a float is not needed: dtype is int16_t or float, sizes are integers. *)
Definition no_str : f64 -> text := fun _ => [].
(** The dtype argument as text; other types are not modelled. *)
Definition dtype_text (d : dtype_arg) : res text :=
  match d with DInt16 => Ret (txt "int16_t") | DFloat => Ret (txt "float") | DOther => Err RuntimeError_ end.

(** trees.py:355  tree_names *)
Definition tree_name (name : text) (i : Z) : text := name ++ txt "_tree_" ++ fmt_int i.
(** trees.py:361  indent = 2 *)
Definition indent : Z := 2.
(** trees.py:363-368 and 597-602  leaves_array: the values given to array_declare *)
Definition leaves_values (leaves : list pyleaf) (leaf_bits : Z) : res (list pynum) :=
  if leaf_bits =? 0 then let* zs := mapM leaf_int leaves in Ret (map PyInt zs)
  else let* t := leaves_table leaves leaf_bits in Ret (map PyInt t).
Definition leaves_code (name : text) (leaves : list pyleaf) (leaf_bits : Z) : res text :=
  let* v := leaves_values leaves leaf_bits in
  array_declare no_str (name ++ txt "_leaves") (Some (zlen v)) (txt "uint8_t") (txt "static const") (Some v) [] [].
(** trees.py:370-372  c_leaf, with the constant already written *)
Definition c_leaf_text (value : text) (depth : Z) : text := spaces (depth * indent) ++ txt "return " ++ value ++ txt ";".
(** trees.py:373-385  c_internal, with the constants and the children already written *)
Definition c_internal_text (feature : Z) (value l r : text) (depth : Z) : text :=
  spaces (depth * indent) ++ txt "if (features[" ++ fmt_int feature ++ txt "] < " ++ value ++ txt ") {
        " ++ l ++ txt "
        " ++ spaces (depth * indent) ++ txt "} else {
        " ++ r ++ txt "
        " ++ spaces (depth * indent) ++ txt "}".
(** trees.py:386-398  the constant of a leaf: class number, leaf number, or value *)
Definition leaf_text (classifier : bool) (leaves : list pyleaf) (leaf_bits : Z) (leaf_idx : Z) : res text :=
  if negb classifier then
    let* l := pyget leaves leaf_idx in
    match l with
    | LValue x => constant no_str (PyFloat x) (txt "float")
    | LClass c => constant no_str (PyInt c) (txt "float")
    | LProba _ => Err TypeError_
    end
  else if leaf_bits =? 0 then
    let* l := pyget leaves leaf_idx in
    let* z := leaf_int l in constant no_str (PyInt z) (txt "int")
  else constant no_str (PyInt leaf_idx) (txt "int").
(** trees.py:373-400  c_node, on fuel as in TreesInline.v *)
Fixpoint c_node_text (leaf : Z -> res text) (dtype : text) (fuel : nat) (nodes : list (dnode pynum)) (idx depth : Z) : res text :=
  match fuel with
  | O => Err NoFuel
  | S fuel' =>
      if idx <? 0 then
        let leaf_idx := - idx - 1 in
        let* value := leaf leaf_idx in Ret (c_leaf_text value (depth + 1))
      else
        let* n := pyget nodes idx in
        let* value := constant no_str (d_value n) dtype in
        let* l := c_node_text leaf dtype fuel' nodes (d_left n) (depth + 2) in
        let* r := c_node_text leaf dtype fuel' nodes (d_right n) (depth + 2) in
        Ret (c_internal_text (d_feature n) value l r (depth + 1))
  end.
(** trees.py:404-413  tree_func *)
Definition tree_func (ctype return_type name code : text) : text :=
  txt "static inline " ++ return_type ++ txt " " ++ name ++ txt "(const " ++ ctype ++ txt " *features, int32_t features_length) {
        " ++ code ++ txt "
        }
        ".

(** trees.py:424-438 *)
Definition forest_regressor_func (name ctype : text) (n_trees : Z) (tree_predictions : text) : text :=
  let function_name := name ++ txt "_predict" in
  txt "float " ++ function_name ++ txt "(const " ++ ctype ++ txt " *features, int32_t features_length) {

        float avg = 0;

        " ++ tree_predictions ++ txt "
        
        return avg/" ++ fmt_int n_trees ++ txt ";
    }
    ".

(** trees.py:440-463 *)
Definition forest_predict_majority_func (name ctype : text) (n_classes : Z) (tree_predictions : text) : text :=
  let function_name := name ++ txt "_predict" in
  txt "int32_t " ++ function_name ++ txt "(const " ++ ctype ++ txt " *features, int32_t features_length) {

        int32_t votes[" ++ fmt_int n_classes ++ txt "] = {0,};
        int32_t _class = -1;

        " ++ tree_predictions ++ txt "
    
        int32_t most_voted_class = -1;
        int32_t most_voted_votes = 0;
        for (int32_t i=0; i<" ++ fmt_int n_classes ++ txt "; i++) {

            if (votes[i] > most_voted_votes) {
                most_voted_class = i;
                most_voted_votes = votes[i];
            }
        }
        return most_voted_class;
    }
    ".

(** trees.py:466-488 *)
Definition forest_proba_majority_func (name ctype : text) (n_trees : Z) (tree_predictions : text) : text :=
  let function_name := name ++ txt "_predict_proba" in
  txt "int " ++ function_name ++ txt "(const " ++ ctype ++ txt " *features, int32_t features_length, float *out, int out_length) {

        int32_t _class = -1;

        for (int i=0; i<out_length; i++) {
            out[i] = 0.0f;
        }

        " ++ tree_predictions ++ txt "
    
        // compute mean
        for (int i=0; i<out_length; i++) {
            out[i] = out[i] / " ++ fmt_int n_trees ++ txt ";
        }
        return 0;
    }
    ".

(** trees.py:499-521 *)
Definition forest_proba_proportions_func (name ctype : text) (n_trees : Z) (tree_predictions : text) : text :=
  let function_name := name ++ txt "_predict_proba" in
  txt "int " ++ function_name ++ txt "(const " ++ ctype ++ txt " *features, int32_t features_length, float *out, int out_length) {

        int offset = 0;

        for (int i=0; i<out_length; i++) {
            out[i] = 0.0f;
        }

        " ++ tree_predictions ++ txt "
    
        // compute mean
        for (int i=0; i<out_length; i++) {
            out[i] = out[i] / " ++ fmt_int n_trees ++ txt ";
        }
        return 0;
    }
    ".

(** trees.py:524-549 *)
Definition forest_predict_proportions_func (name ctype : text) (n_classes : Z) (tree_predictions : text) : text :=
  let function_name := name ++ txt "_predict" in
  txt "int32_t " ++ function_name ++ txt "(const " ++ ctype ++ txt " *features, int32_t features_length) {

        float out[" ++ fmt_int n_classes ++ txt "] = {0.0f,};

        int offset = 0;

        " ++ tree_predictions ++ txt "
    
        // argmax over probabilities
        int32_t most_voted_class = -1;
        float most_voted_proba = 0.0f;
        for (int32_t i=0; i<" ++ fmt_int n_classes ++ txt "; i++) {

            if (out[i] > most_voted_proba) {
                most_voted_class = i;
                most_voted_proba = out[i];
            }
        }
        return most_voted_class;
    }
    ".

(** trees.py:415-422, 493-498  one line of the vote per tree *)
Definition tree_vote_classifier (name : text) : text := txt "_class = " ++ name ++ txt "(features, features_length); votes[_class] += 1;".
Definition tree_vote_proba (name : text) : text := txt "_class = " ++ name ++ txt "(features, features_length); out[_class] += 1.0f;".
Definition tree_vote_regressor (name : text) : text := txt "avg += " ++ name ++ txt "(features, features_length); ".
Definition tree_vote_leaf_proportion (leaves : text) (n_classes : Z) (name : text) : text :=
  txt "offset = " ++ fmt_int n_classes ++ txt "*" ++ name ++ txt "(features, features_length);
            for (int i=0; i<" ++ fmt_int n_classes ++ txt "; i++) { out[i] += (" ++ leaves ++ txt "[offset+i]/255.0f); }
        ".
Definition votes (line : text -> text) (tree_names : list text) : text := join_with (txt "
    ") (map line tree_names).

(** trees.py:566-570 *)
Definition inline_head : text := txt "
    // !!! This file is generated using emlearn !!!

    #include <stdint.h>
    ".
(** trees.py:350-578  generate_c_inlined: the text *)
Definition inline_text (f : forest (T:=pynum) (L:=pyleaf)) (name : text) (n_classes leaf_bits : Z) (dtype : text)
    (classifier include_proba : bool) : res text :=
  let '(nodes, roots, leaves) := f in
  do* assert_valid_identifier name;
  let tree_names := map (fun '(i, _) => tree_name name i) (enumerate roots) in
  let n_trees := zlen roots in
  let* lcode := leaves_code name leaves leaf_bits in
  let leaves_name := name ++ txt "_leaves" in
  let forest_classifier_func :=
    if leaf_bits =? 0 then forest_predict_majority_func name dtype n_classes (votes tree_vote_classifier tree_names)
    else forest_predict_proportions_func name dtype n_classes (votes (tree_vote_leaf_proportion leaves_name n_classes) tree_names) in
  let forest_proba_func :=
    if leaf_bits =? 0 then forest_proba_majority_func name dtype n_trees (votes tree_vote_proba tree_names)
    else forest_proba_proportions_func name dtype n_trees (votes (tree_vote_leaf_proportion leaves_name n_classes) tree_names) in
  let forest_funcs :=
    if classifier then [forest_classifier_func] ++ (if include_proba then [forest_proba_func] else [])
    else [forest_regressor_func name dtype n_trees (votes tree_vote_regressor tree_names)] in
  let return_type := if classifier then txt "int32_t" else txt "float" in
  let* tree_funcs := mapM (fun '(n, r) =>
      let* code := c_node_text (leaf_text classifier leaves leaf_bits) dtype (S (length nodes)) nodes r 0 in
      Ret (tree_func dtype return_type n code)) (combine tree_names roots) in
  Ret (join_with [10; 10] ([inline_head] ++ tree_funcs ++ (if leaf_bits =? 0 then [] else [lcode]) ++ forest_funcs)).

(** trees.py:311-318  make_node; the feature number is formatted with str() *)
Definition make_node_text (dtype : text) (index : Z) (n : dnode pynum) : res text :=
  let* l := encode_child index (d_left n) in
  let* r := encode_child index (d_right n) in
  let* value := constant no_str (d_value n) dtype in
  Ret (txt "{ " ++ fmt_int (d_feature n) ++ txt ", " ++ value ++ txt ", " ++ fmt_int l ++ txt ", " ++ fmt_int r ++ txt " }").
(** trees.py:309-327  generate_c_nodes *)
Definition nodes_text (nodes : list (dnode pynum)) (name dtype : text) : res text :=
  let* structs := mapM (fun '(i, n) => make_node_text dtype i n) (enumerate nodes) in
  Ret (txt "static const" ++ txt " EmlTreesNode " ++ name ++ txt "[" ++ fmt_int (zlen nodes) ++ txt "] = {
  " ++ join_with (txt ",
  ") structs ++ txt " 
};").
(** trees.py:592-595  tree_roots *)
Definition roots_text (roots : list Z) (name : text) : text :=
  txt "static const" ++ txt " int32_t " ++ name ++ txt "[" ++ fmt_int (zlen roots) ++ txt "] = { " ++ join_with (txt ", ") (map fmt_int roots) ++ txt " };".
(** trees.py:608-618  forest_struct *)
Definition forest_struct (name nodes_name tree_roots_name leaves_name leaves_dtype : text)
    (nodes_length tree_roots_length leaves_length tree_leaf_bits n_features n_classes : Z) : text :=
  txt "EmlTrees " ++ name ++ txt " = {
        " ++ fmt_int nodes_length ++ txt ",
        (EmlTreesNode *)(" ++ nodes_name ++ txt "),	  
        " ++ fmt_int tree_roots_length ++ txt ",
        (int32_t *)(" ++ tree_roots_name ++ txt "),
        " ++ fmt_int leaves_length ++ txt ",
        (" ++ leaves_dtype ++ txt " *)(" ++ leaves_name ++ txt "),
        " ++ fmt_int tree_leaf_bits ++ txt ",
        " ++ fmt_int n_features ++ txt ",
        " ++ fmt_int n_classes ++ txt ",
    };".

(** trees.py:624-634 *)
Definition loadable_forest_regressor_func (name ctype : text) : text :=
  let function_name := name ++ txt "_predict" in
  txt "float " ++ function_name ++ txt "(const " ++ ctype ++ txt " *features, int32_t features_length) {

        const float out = eml_trees_regress1(&" ++ name ++ txt ", features, features_length);
        return out;
    }
    ".

(** trees.py:636-646 *)
Definition loadable_forest_classifier_func (name ctype : text) : text :=
  let function_name := name ++ txt "_predict" in
  txt "int32_t " ++ function_name ++ txt "(const " ++ ctype ++ txt " *features, int32_t features_length) {

        const int out = eml_trees_predict(&" ++ name ++ txt ", features, features_length);
        return out;

    }
    ".

(** trees.py:649-660 *)
Definition loadable_forest_proba_func (name ctype : text) : text :=
  let function_name := name ++ txt "_predict_proba" in
  txt "int " ++ function_name ++ txt "(const " ++ ctype ++ txt " *features, int32_t features_length, float *out, int out_length) {

        const EmlError err =             eml_trees_predict_proba(&" ++ name ++ txt ", features, features_length, out, out_length);
        return err;

    }
    ".

(** trees.py:671-675 *)
Definition loadable_head : text := txt "
    // !!! This file is generated using emlearn !!!

    #include <eml_trees.h>
    ".
(** trees.py:581-678  generate_c_loadable: the text *)
Definition loadable_text (f : forest (T:=pynum) (L:=pyleaf)) (name : text) (n_features n_classes leaf_bits : Z) (dtype : text)
    (classifier include_proba : bool) : res text :=
  let '(nodes, roots, leaves) := f in
  do* assert_valid_identifier name;
  let nodes_name := name ++ txt "_nodes" in
  let* nodes_c := nodes_text nodes nodes_name dtype in
  let tree_roots_name := name ++ txt "_tree_roots" in
  let tree_roots := roots_text roots tree_roots_name in
  let* v := leaves_values leaves leaf_bits in
  let* lcode := leaves_code name leaves leaf_bits in
  let tree_leaf_bits := if (leaf_bits =? 0) || (leaf_bits =? 32) then leaf_bits else 8 in
  let struct := forest_struct name nodes_name tree_roots_name (name ++ txt "_leaves") (txt "uint8_t")
    (zlen nodes) (zlen roots) (zlen v) tree_leaf_bits n_features n_classes in
  let forest_funcs :=
    if classifier then [loadable_forest_classifier_func name dtype] ++ (if include_proba then [loadable_forest_proba_func name dtype] else [])
    else [loadable_forest_regressor_func name dtype] in
  Ret (join_with [10; 10] ([loadable_head; nodes_c; tree_roots; lcode; struct] ++ forest_funcs)).

(** trees.py:848-881  save(name, format='c') with the method the model was converted with *)
Definition trees_text (w : wrapper) (name : text) (include_proba : bool) : res text :=
  let* dtype := dtype_text (w_dtype w) in
  match w_method w with
  | MLoadable =>
      let* t := loadable_text (w_forest w) name (w_n_features w) (w_n_classes w) (w_leaf_bits w) dtype (w_classifier w) include_proba in
      Ret ([10; 10] ++ t)
  | MInline =>
      let* t := inline_text (w_forest w) name (w_n_classes w) (w_leaf_bits w) dtype (w_classifier w) include_proba in
      Ret ([10; 10] ++ t)
  | MUnknown => Err ValueError_
  end.

(** neighbors.py:126-131  neighbors_model_init *)
Definition neighbors_model_init (name : text) (n_neighbors n_features n_items max_items : Z) (data labels : text) : text :=
  struct_declare name (txt "EmlNeighborsModel")
    (Some [fmt_int n_features; fmt_int n_items; fmt_int max_items; data; labels; fmt_int n_neighbors]) (txt "static const").
(** neighbors.py:133-176  c_generate_neighbors: the text. [data] is a matrix with n_features columns. *)
Definition neighbors_text (data : list (list pynum)) (n_features : Z) (labels : list pynum) (n_neighbors : Z) (prefix : text) : res text :=
  do* assert_valid_identifier prefix;
  let data_name := prefix ++ txt "_data" in
  let n_items := zlen data in
  let labels_name := prefix ++ txt "_labels" in
  let max_items := n_items in
  let declare_array name values := array_declare no_str name None (txt "int16_t") (txt "static const") (Some values) [] [] in
  let* d := declare_array data_name (concat data) in
  let* l := declare_array labels_name labels in
  Ret (join_with [10] [txt "#include <eml_neighbors.h>"; d; l;
    neighbors_model_init prefix n_neighbors n_features n_items max_items (txt "(int16_t *)" ++ data_name) (txt "(int16_t *)" ++ labels_name)]).
