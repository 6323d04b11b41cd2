R='Model/TreesRun.v'; W='Model/TreesWrapper.v'; I='Model/TreesInline.v'
M=[
(R,'if text_eqb rest (txt "f") then','if text_eqb rest (txt "") then','c_float_literal: suffix f not accepted','C78'),
(R,'let* t := constant (fun _ => []) v (txt "float")','let* t := constant (fun _ => []) v (txt "int")','float_const: threshold written as an integer','C78'),
(R,'let* l := pyget leaves leaf_idx in\n  match l with\n  | LValue x','let* l := pyget leaves (leaf_idx + 1) in\n  match l with\n  | LValue x','value_leaf_const: next leaf','C75,C76'),
(R,'mapM (c_node const (value_leaf_const leaves) (S (length nodes)) nodes) roots','mapM (c_node const (value_leaf_const leaves) (S (length nodes)) nodes) (tl roots)','generate_c_inlined_regress: first tree left out','C75'),
(R,'Ret (fdiv avg (f_of_Z (zlen p)))','Ret avg','inline_regress: sum instead of mean','C75,C76'),
(R,'Ret (fdiv avg (f_of_Z (zlen p)))','Ret (fdiv avg (f_of_Z (zlen p - 1)))','inline_regress: divided by N-1','C75,C76'),
(R,'Ret (fadd avg y)) fzero p','Ret y) fzero p','inline_regress: only the last tree','C75,C76'),
(R,'(-32767 <=? k) && (k <=? 32767)','(0 <=? k) && (k <=? 32767)','int16_test_ok: negative thresholds refused','C73,C74,C75,C77'),
(R,'let* p := generate_c_inlined float_const (w_forest w) (w_n_classes w) (w_leaf_bits w)','let* p := generate_c_inlined float_const (w_forest w) (w_n_features w) (w_leaf_bits w)','save_code: n_features passed as n_classes (float)','C78'),
(R,'  if length <? n_features then Err Uninitialised else Ret fs','  if length <=? n_features then Err Uninitialised else Ret fs','full_row: full rows refused','C73,C74,C75,C78'),
(R,'let* x := cast v in zset fs i x','let* x := cast v in zset fs 0 x','cast_row: all values into element 0','C73,C74,C75,C78'),
(R,'(repeat x0 (Z.to_nat n_features)) (zrange length)','(repeat x0 (Z.to_nat n_features)) (zrange (length - 1))','cast_row: last value not copied','C73,C74,C75,C78'),
(R,'| CodeFloat p => let* fs := full_row (@Ret f32) fzero n_features values length in inline_predict fltb p fs','| CodeFloat p => let* fs := full_row (@Ret f32) fzero n_features values length in inline_predict fleb p fs','code_predict: <= instead of < (float)','C78,C79'),
(R,'in inline_regress fltb p fs','in inline_regress (fun a b => fltb b a) p fs','code_regress: comparison exchanged (float)','C78'),
(R,'in inline_regress Z.ltb p fs','in inline_regress Z.leb p fs','code_regress: <= instead of < (int16)','C75,C77'),
(R,'let* (_, o) := inline_predict_proba_int16 p fs outputs n_classes in Ret o','let* (_, o) := inline_predict_proba_int16 p fs outputs n_classes in Ret outputs','code_predict_proba: output not written (int16 inline)','C74'),
(R,'let* (_, o) := inline_predict_proba fltb p fs outputs n_classes in Ret o','let* (_, o) := inline_predict_proba fltb p fs outputs (n_classes - 1) in Ret o','code_predict_proba: wrong length (float)','C78'),
(R,'Ret (f_of_Z (flip_negative out))) OutInt X','Ret (f_of_Z (out + 1))) OutInt X','wrapper_predict: class plus one','C73,C77,C78'),
(R,'OutFloat X','OutInt X','wrapper_predict: regression result as integer','C75,C77,C78'),
(R,'(code_predict_proba c (w_n_features w) (w_n_classes w)) (w_n_classes w) X','(code_predict_proba c (w_n_features w) (w_n_classes w)) (w_n_classes w + 1) X','wrapper_predict_proba: one column too many','C74'),
(R,'eml_trees_predict m fs length','eml_trees_predict m fs (length + 1)','code_predict: wrong length to loadable predict','C73'),
(R,'| CodeLoadable m => let* fs := full_row f32_to_int16 0 n_features values length in eml_trees_regress1 m fs','| CodeLoadable m => let* fs := full_row f32_to_int16 0 n_features values length in eml_trees_regress1 m (rev fs)','code_regress: features reversed','C75,C77'),
(W,'f32_to_int16','f32_to_int16','skip','C00') if False else
(R,'if is_finite x then Ret x else Err CompileError','if is_finite x then Ret (Bopp x) else Err CompileError','c_float_literal: sign lost','C75,C76,C78'),
]
