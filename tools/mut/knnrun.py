K='Model/NeighborsRun.v'; W='Model/Workspace.v'; D='Model/Neighbors.v'
M=[
(K,'if (-32768 <=? z) && (z <=? 32767) then Ret z else Err CompileError.\n(** A member','if (-32767 <=? z) && (z <=? 32767) then Ret z else Err CompileError.\n(** A member','int16_const: -32768 refused','C80,C81'),
(K,'let* z := py_int v in\n  if (-32768 <=? z)','let* z := Ret (match v with PyInt z => z | PyFloat _ => 0 end) in\n  if (-32768 <=? z)','int16_const: float values become 0','C80,C81'),
(K,'let* labels := mapM int16_const labels in','let* labels := mapM int16_const (rev labels) in','c_generate_neighbors: labels in reverse order','C80,C81'),
(K,'let* data := mapM int16_const (concat data) in','let* data := mapM int16_const (concat (rev data)) in','c_generate_neighbors: rows in reverse order','C80,C81'),
(K,'let* n_items := member_const (-32768) 32767 n_items in','let* n_items := member_const (-32768) 32767 (n_items - 1) in','c_generate_neighbors: last training row not counted','C80,C81'),
(K,'let* k := member_const (-32768) 32767 n_neighbors in','let* k := member_const (-32768) 32767 (n_neighbors - 1) in','c_generate_neighbors: k off by one','C80,C81'),
(K,'Ret (mk_neighbors n_features n_items max_items data labels k)','Ret (mk_neighbors n_items n_features max_items data labels k)','c_generate_neighbors: n_features and n_items swapped','C80,C81'),
(K,'let* n_features := member_const 0 65535 n_features in','let* n_features := member_const 0 100 n_features in','c_generate_neighbors: more than 100 features refused','C80,C81'),
(K,'let* features := cast_row f32_to_int16 0 (nm_n_features m) values length in','let* features := cast_row (fun _ => Ret 0) 0 (nm_n_features m) values length in','knn_predict_func: features never filled in','C80'),
(K,'  | EmlOk => Ret (f_of_Z out)\n','  | EmlOk => Ret (f_of_Z (out + 1))\n','knn_predict_func: label + 1','C80,C82'),
(K,'  | e => Ret (f_of_Z (- eml_error_code e))','  | e => Ret (f_of_Z (eml_error_code e))','knn_predict_func: errors not negated (look like labels)','C82'),
(K,'eml_neighbors_predict m features length distances (nm_n_items m) (-1)','eml_neighbors_predict m features length distances (nm_n_items m - 1) (-1)','knn_predict_func: distance array one short','C80'),
(K,'if negb (String.eqb metric "euclidean") then Err ValueError_\n  else ','','check_params_supported: any metric accepted','C81'),
(K,'else if negb (String.eqb weights "uniform") then Err ValueError_','else if negb (String.eqb weights "distance") then Err ValueError_','check_params_supported: wrong weights accepted','C80,C81'),
(K,'if String.eqb inference "loadable" then c_generate_neighbors','if negb (String.eqb inference "inline") then c_generate_neighbors','knn_init: any method but inline accepted','C81'),
(K,'None => "loadable"%string','None => "inline"%string','knn_init: default method not supported','C80,C81'),
(K,'(repeat (mk_dist 0 0) (Z.to_nat (nm_n_items m)))) OutInt X','(repeat (mk_dist 0 0) (Z.to_nat (nm_k m)))) OutInt X','knn_predict: distance array of k entries','C80'),
(W,'if String.eqb name path then Ret p else file_at fs\' path','match file_at fs\' path with Ret q => Ret q | Err _ => if String.eqb name path then Ret p else Err KeyError_ end','file_at: the oldest file wins (executable not replaced)','C83,C84'),
(W,'  | Ret p => ((name, p) :: fs, Ret name)','  | Ret p => (fs, Ret name)','build_classifier: executable not written','C83,C84'),
(W,'  | Ret p => ((name, p) :: fs, Ret name)','  | Ret p => ([(name, p)], Ret name)','build_classifier: other executables deleted','C83'),
(W,'(name ++ "_proba")','name','compiled_classifier: proba executable overwrites the other','C83,C84'),
(W,'  | Err e => (fs, Err e)\n  end.\n\n(** common.py:160','  | Err e => ([], Err e)\n  end.\n\n(** common.py:160','build_classifier: files lost when compiling fails','C83'),
(W,'let* p := file_at fs (cc_bin_path c) in','let* p := file_at fs "mynet" in','compiled_predict: fixed path','C83,C84'),
(W,'KNeighbors => "mymodel"','KNeighbors => "mynet"','kind_name: two kinds share a name','C83'),
(W,'KNeighbors => "mymodel"','KNeighbors => "mytree"','kind_name: kNN shares the name of trees','C83'),
(W,'(mk_session fs (s_models s), OPredictions (let* c := r in compiled_predict fs c X))','(mk_session fs (s_models s), OPredictions (let* c := r in compiled_predict (s_files s) c X))','step: tree model runs the executable from before building','C84'),
(W,'OProbabilities (let* c := r in compiled_predict_proba fs c X))','OProbabilities (let* c := r in compiled_predict_proba (s_files s) c X))','step: tree predict_proba runs the executable from before building','C84'),
(W,'(mk_session fs (s_models s ++ [MCompiled c]), OModel','(mk_session fs (MCompiled c :: s_models s), OModel','step: new model put first','C83'),
(W,'| Err e => (mk_session fs (s_models s), ORaised e)','| Err e => (mk_session fs (s_models s ++ [MTrees src]), ORaised e)','step: failed model still added','C83'),
(D,'let* diff := chk_int32 (x - y) in','let* diff := chk_int32 (x + y) in','eml_distance_euclidean_int16_at: sum instead of difference','C80'),
]
