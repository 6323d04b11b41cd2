M=[
('Model/Convert.v','"RandomForestRegressor"; "ExtraTreesRegressor"; "DecisionTreeRegressor" ]','"RandomForestRegressor"; "ExtraTreesRegressor" ]',"SUPPORTED_ESTIMATORS: DecisionTreeRegressor missing",'C121'),
('Model/Convert.v','match index 0 sub s with Some _ => true','match index 0 sub s with Some (Datatypes.S _) => true | Some O => false',"contains: not at the start",'C120'),
('Model/Convert.v','if String.eqb s "inline" then MInline else if String.eqb s "loadable" then MLoadable','if String.eqb s "loadable" then MInline else if String.eqb s "inline" then MLoadable',"method_of: swapped",'C121'),
('Model/Convert.v','else if String.eqb s "float" then DFloat else DOther','else DOther',"dtype_of: float unknown",'C121'),
('Model/Convert.v','match kw_use_fixedpoint o, kw_other o with\n  | None, false =>','match kw_use_fixedpoint o, kw_other o with\n  | None, _ =>',"trees_wrapper: unknown keywords accepted",'C123'),
('Model/Convert.v','let leaf_bits := match kw_leaf_bits o with Some b => b | None => None end in','let leaf_bits := match kw_leaf_bits o with Some b => b | None => Some 0 end in',"trees_wrapper: leaf_bits 0 by default",'C121'),
('Model/Convert.v','let classifier := negb (contains "Regressor" (type_name e)) in','let classifier := contains "Classifier" (type_name e) in',"trees_wrapper: classifier by name",'C120'),
('Model/Convert.v','if (n <? 3)%Z then Err ValueError_ else if bad then Err TypeError_','if (n <? 3)%Z then Err ValueError_ else if false && bad then Err TypeError_',"net_of: keywords accepted",'C123'),
('Model/Convert.v','convert_sklearn_mlp expf logf tanhf n a oa ws bs (o_method o) (o_return_type o) fixedpoint','convert_sklearn_mlp expf logf tanhf n oa a ws bs (o_method o) (o_return_type o) fixedpoint',"net_of: activations swapped",'C121'),
('Model/Convert.v','convert_sklearn_mlp expf logf tanhf n a oa ws bs (o_method o) (o_return_type o) fixedpoint','convert_sklearn_mlp expf logf tanhf n a oa ws bs (o_method o) "regressor" fixedpoint',"net_of: return_type ignored",'C121'),
('Model/Convert.v','match o_kind o with None => type_name e | Some k => k end in','type_name e in',"convert: kind ignored",'C120'),
('Model/Convert.v','else if is_in kind ["GaussianMixture"; "BayesianGaussianMixture"] then','else if is_in kind ["GaussianMixture"] then',"convert: BayesianGaussianMixture unknown",'C121'),
('Model/Convert.v','else if is_in kind ["MLPClassifier"; "MLPRegressor"] then','else if is_in kind ["MLPClassifier"] then',"convert: MLPRegressor unknown",'C121'),
('Model/Convert.v','let* m := nb_init float_str log2_fn (o_method o) f in Ret (MNB m)','let* m := nb_init float_str log2_fn None f in Ret (MNB m)',"convert: method of GaussianNB ignored",'C123'),
('Model/Convert.v','else if String.eqb kind "Sequential" then let* w := net_of e true o in Ret (MNet w)','else if String.eqb kind "Sequential" then let* w := net_of e false o in Ret (MNet w)',"convert: Keras as sklearn",'C125'),
('Model/Convert.v','  else Err ValueError_.\n\n(** predict:','  else let* w := trees_wrapper e o in Ret (MTrees w).\n\n(** predict:',"convert: anything else as trees",'C120'),
('Model/Convert.v','| MNB b => nb_predict junk b X','| MNB b => nb_predict junk b (rev X)',"model_predict: rows reversed",'C121'),
('Model/Convert.v','| MEnvelope f e => elliptic_score_samples expf logf tanhf f e X','| MEnvelope f e => elliptic_mahalanobis expf logf tanhf f e X',"model_score_samples: sign",'C124'),
('Model/Net.v','if String.eqb name "sigmoid" then "logistic"%string','if String.eqb name "sigmoid" then "tanh"%string',"from_keras_activation: sigmoid as tanh",'C125'),
('Model/Net.v','| KDropout => Ret acc','| KDropout => set_activation acc "identity"',"keras_step: dropout resets the activation",'C125'),
('Model/Net.v','let* acc := foldM keras_step [] layers in Ret (rev acc)','let* acc := foldM keras_step [] layers in Ret acc',"convert_keras: layers reversed",'C125'),
('Model/NetRun.v','''  let* ls := convert_keras f64_arith layers in
  net_wrapper method''','''  let* ls := convert_keras f64_arith layers in
  net_wrapper (match method with None => Some "inline"%string | x => x end)''',"convert_keras_model: default method inline",'C125'),
]
