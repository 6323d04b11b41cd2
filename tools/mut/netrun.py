F='Model/NetRun.v'
M=[
(F,"let* biases := mapM (fun v : f64 => float_const (PyFloat v)) (py_biases f64_arith l) in","let* biases := mapM (fun v : f64 => float_const (PyFloat (Bopp v))) (py_biases f64_arith l) in","const_layer: biases written with the wrong sign","C89,C90,C91"),
(F,"let* weights := mapM (mapM (fun v : f64 => float_const (PyFloat v))) (py_weights f64_arith l) in","let* weights := mapM (mapM (fun v : f64 => float_const (PyInt (ftrunc v)))) (py_weights f64_arith l) in","const_layer: weights cut to integers","C89,C90,C91"),
(F,"Ret (mk_pylayer A (py_activation f64_arith l) weights","Ret (mk_pylayer A \"relu\" weights","const_layer: every layer written as relu","C89,C90,C91"),
(F,"let n_outputs := if n_outputs =? 1 then 2 else n_outputs in","let n_outputs := n_outputs in","net_wrapper: one output not counted as two classes","C91"),
(F,"let* _ := mapM (fun l => c_activation_function (py_activation f64_arith l)) ls in\n  let* ls := mapM const_layer ls in","let* ls := mapM const_layer (tl ls) in","save_compiled: first layer dropped","C89,C90,C91,C92"),
(F,"if use_fixedpoint && negb (String.eqb inference_type \"inline\") then Err RuntimeError_","if false then Err RuntimeError_","net_wrapper: use_fixedpoint silently ignored for loadable","C92,C95"),
(F,"if use_fixedpoint then Err CompileError else Ret (NetInline m)","Ret (NetInline m)","net_wrapper: fixed point inline accepted","C92,C95"),
(F,"match classifier with None => \"loadable\"%string | Some s => s end in","match classifier with None => \"inline\"%string | Some s => s end in","net_wrapper: default method inline","C89,C91,C92"),
(F,"else if String.eqb inference_type \"inline\" && String.eqb return_type \"regressor\" then Err RuntimeError_","else if String.eqb inference_type \"inline\" && String.eqb return_type \"regressor\" then let* m := save_compiled ls in Ret (NetInline m)","net_wrapper: inline regressor accepted, would predict classes","C92"),
(F,"else Err ValueError_.\n","else let* m := save_compiled ls in Ret (NetClassifier m n_outputs).\n","net_wrapper: unknown method accepted","C92"),
(F,"if n_layers_ <? 3 then Err ValueError_","if n_layers_ <? 2 then Err ValueError_","convert_sklearn_mlp: no hidden layer accepted","C89"),
(F,"let activations := repeat activation (length coefs_ - 1) ++ [out_activation_] in","let activations := [out_activation_] ++ repeat activation (length coefs_ - 1) in","convert_sklearn_mlp: output activation put first","C89"),
(F,"let activations := repeat activation (length coefs_ - 1) ++ [out_activation_] in","let activations := repeat activation (length coefs_) in","convert_sklearn_mlp: output activation replaced by the hidden one","C89"),
(F,"let* (out, _) := eml_net_predict A m x length in\n  Ret (f_of_Z out)","let* (out, _) := eml_net_predict A m x length in\n  Ret (f_of_Z (out + 1))","net_predict_func: classes counted from 1","C90,C93"),
(F,"let* (out, _) := eml_net_regress1 A (fzero : f32) m x length in","let* (out, _) := eml_net_regress1 A (fzero : f32) m x (length - 1) in","net_regress_func: wrong length passed","C89"),
(F,"let* (_, _, out) := eml_net_predict_proba A m x length outputs n_outputs in","let* (_, _, out) := eml_net_predict_proba A m x length outputs (n_outputs + 1) in","net_proba_func: wrong outputs_length passed","C91,C94"),
(F,"| NetRegressor m => predict (net_regress_func m) OutFloat X","| NetRegressor m => predict (net_regress_func m) OutInt X","net_predict: regression values cut to integers","C89"),
(F,"| NetClassifier m n => predict_proba (net_proba_func m n) n X","| NetClassifier m n => predict_proba (net_proba_func m n) (n - 1) X","net_predict_proba: last class lost","C91"),
(F,"| NetInline m => predict (net_predict_func m) OutInt X","| NetInline m => predict (net_regress_func m) OutInt X","net_predict: inline classifier returns cut outputs","C90,C92"),
('Model/Net.v',"let* a := zget outputs 0 in Ret (if nltb A (nhalf A) a then 1 else 0)","let* a := zget outputs 0 in Ret (if nltb A a (nhalf A) then 1 else 0)","predict_class: comparison with 1/2 the wrong way round","C90"),
('Model/Net.v',"let* m := chk_int32 (i * out_length) in\n          let* w_idx := chk_int32 (o + m) in","let* m := chk_int32 (o * in_length) in\n          let* w_idx := chk_int32 (i + m) in","eml_net_forward: weights read column by column","C89,C90,C91"),
('Model/Net.v',"then Ret (EmlSizeMismatch, m)\n    else\n      let* largest","then Ret (EmlOk, m)\n    else\n      let* largest","eml_net_infer: wrong number of features reported as success","C93"),
('Model/Harness.v',"(map (fmt_fixed 8) row)","(map (fmt_fixed 2) row)","serialize_row: features sent with two decimals","C89,C90,C91"),
]
