F='Model/MixtureRun.v'
M=[
(F,'fmt_fixed 6 v ++ txt "f"','fmt_fixed 3 v ++ txt "f"','gcc_float_const: constants written with 3 decimals','C116,C117'),
(F,'let* log_dets := mapM gcc_float_const (w_log_det w) in','let* log_dets := mapM gcc_float_const (w_log_weights w) in','build_executable: log_weights stored as log_dets','C116,C117'),
(F,'let* log_weights := mapM gcc_float_const (w_log_weights w) in','let* log_weights := mapM gcc_float_const (map (fun _ => fzero) (w_log_weights w)) in','build_executable: weights dropped','C116,C117'),
(F,'let* precisions := mapM gcc_float_const (concat (concat (w_precisions_col w))) in','let* precisions := mapM gcc_float_const (rev (concat (concat (w_precisions_col w)))) in','build_executable: precisions in reversed order','C116,C117'),
(F,'Ret (mk_mixture A n_components n_features CovFull means','Ret (mk_mixture A n_components n_features CovTied means','build_executable: another covariance type in the struct','C116,C117,C118'),
(F,'| OutProba => let* resp := exec_predict_proba A log_density_c m features in','| OutProba => let* (resp, _) := exec_score A log_density_c m features in','gmm_main: predict_proba prints the log probabilities','C117,C118'),
(F,'| OutLogProba => let* (output, _) := exec_score A log_density_c m features in','| OutLogProba => let* output := exec_predict_proba A log_density_c m features in','gmm_main: predict_log_proba prints probabilities','C117'),
(F,'let* (_, score) := exec_score A log_density_c m features in Ret (fmt_fixed 6 (score : f32))','let* (_, score) := exec_score A log_density_c m features in Ret (fmt_fixed 2 (score : f32))','gmm_main: score printed with 2 decimals','C116'),
(F,'let features := map (fun a => f32_of_f64 (strtod a)) argv in','let features := map (fun a => f32_of_f64 (strtod a)) (rev argv) in','gmm_main: features in reversed order','C116,C117'),
(F,'let features := map (fun a => f32_of_f64 (strtod a)) argv in','let features := map (fun a => f32_of_f64 (strtod a)) (tl argv) in','gmm_main: argv[0] skipped twice','C116,C117'),
(F,'let* line := pyget lines (-1) in\n  mapM py','let* line := pyget lines (-2) in\n  mapM py','gmm_predict_one: the line before the last','C116,C117'),
(F,'(split_on (Z.eqb 44) line)','(split_on (Z.eqb 59) line)','gmm_predict_one: split at semicolons','C117'),
(F,'match probabilities with [] => Err IndexError_ | _ => mapM np_argmax probabilities end','match probabilities with [] => Ret [] | _ => mapM np_argmax probabilities end','gmm_predict: empty result for no rows','C119'),
(F,'let* probabilities := gmm_predict_proba w X in','let* probabilities := gmm_run w OutScore X in','gmm_predict: argmax of the score','C118'),
(F,'is_nan v || fltb best v','is_nan v || fltb v best','np_argmax: argmin','C118'),
(F,'mapM (fun r => pyget r 0) predictions','mapM (fun r => pyget r 1) predictions','gmm_score_samples: second column','C116'),
(F,'let* predictions := gmm_run w OutScore X in','let* predictions := gmm_run w OutLogProba X in','gmm_score_samples: first component instead of the score','C116'),
(F,'"spherical" then match p with Arr1 l => Ret (ChSpherical f64_arith l)','"spherical_" then match p with Arr1 l => Ret (ChSpherical f64_arith l)','typed_chol: spherical not known','C116,C117,C118'),
(F,'"diag" then match p with Arr2 l => Ret (ChDiag f64_arith l)','"diag" then match p with Arr2 l => Ret (ChTied f64_arith l)','typed_chol: diag taken for tied','C116,C117'),
(F,'else Err ValueError_.','else match p with Arr3 l => Ret (ChFull f64_arith l) | _ => Err AssertionError_ end.','typed_chol: unknown types taken for full','C119'),
(F,'if text_eqb rest (txt "f") then Ret (f_of_dec s n k) else Err CompileError','if text_eqb rest (txt "f") then Ret (f_of_dec (negb s) n k) else Err CompileError','gcc_float_literal: sign lost','C116,C117'),
(F,'| None => Err CompileError','| None => Ret fzero','gcc_float_literal: nan and inf as 0','C119'),
('Model/Mixture.v','if negb (zlen x =? m_n_features m) then Err RuntimeError_\n  else\n    let zeros := repeat (nzero A) (Z.to_nat (m_n_components m)) in\n    let* (out, output','if negb (zlen x <=? m_n_features m) then Err RuntimeError_\n  else\n    let zeros := repeat (nzero A) (Z.to_nat (m_n_components m)) in\n    let* (out, output','exec_score: fewer arguments accepted','C119'),
('Model/Mixture.v','Definition EML_LOG_2PI_double : f64 := f_of_dec false 18378770664093453 16.','Definition EML_LOG_2PI_double : f64 := f_of_dec false 9189385332046727 16.','EML_LOG_2PI_double: half of it','C116,C117'),
('Model/Mixture.v','(fmul (f_of_ZE (-1) (-1)) (fadd (fmul (f_of_Z n_features)','(fmul (f_of_ZE (-1) 0) (fadd (fmul (f_of_Z n_features)','log_density_c: factor -1 instead of -0.5','C116,C117'),
('Model/Mixture.v','let y := nsub A dot_x dot_m in','let y := nadd A dot_x dot_m in','eml_mixture_predict_log_proba: sum instead of difference','C116,C117'),
]
