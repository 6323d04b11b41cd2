M=[
('Model/DistanceRun.v','Ret (mk_envelope A n_features decision_boundary means precisions)','Ret (mk_envelope A n_features decision_boundary (rev means) precisions)','save_envelope: means in reverse order','C106,C107'),
('Model/DistanceRun.v','mapM (fun v : f64 => float_const (PyFloat v)) (concat (fe_precision f)) in\n  let* dec','mapM (fun v : f64 => float_const (PyFloat v)) (repeat fzero (length (concat (fe_precision f)))) in\n  let* dec','save_envelope: precisions are zero','C106,C107'),
('Model/DistanceRun.v','c_float_constant (float_str (fe_offset f) ++ txt "f")','c_float_constant (float_str (fe_offset f))','save_envelope: offset without the suffix f','C111,C106'),
('Model/DistanceRun.v','then - n else n), rest)','then n else n), rest)','take_exponent: sign of the exponent ignored','C111'),
('Model/DistanceRun.v','Ret (map (@Bopp 53 1024) d)','Ret d','elliptic_score_samples: sign not changed','C106'),
('Model/DistanceRun.v','np_sub (Bopp d) (fe_offset f) in','np_sub d (fe_offset f) in','elliptic_predict: distance instead of score','C107'),
('Model/DistanceRun.v','if fltb fzero dd then 1 else -1','if fltb fzero dd then 0 else -1','elliptic_predict: inliers are 0','C107'),
('Model/DistanceRun.v','if fltb fzero dd then 1 else -1','if fltb dd fzero then 1 else -1','elliptic_predict: comparison the other way','C107'),
('Model/DistanceRun.v','| Some "inline"%string => save_envelope f\n  | _ => Err ValueError_','| Some "inline"%string => save_envelope f\n  | None => save_envelope f\n  | _ => Err ValueError_','elliptic_wrapper: default method accepted','C110'),
('Model/DistanceRun.v','| Some "inline"%string => save_envelope f','| Some "loadable"%string => save_envelope f','elliptic_wrapper: loadable instead of inline','C110,C106'),
('Model/DistanceRun.v','  do* py_assert (zlen x1 =? zlen x2);\n  do* py_assert (forallb (fun r => zlen precision =? zlen r) precision);\n  do* py_assert (size =? zlen precision);\n  foldM','  foldM','np_squared_mahalanobis_distance: no assertions','C108'),
('Model/DistanceRun.v','np_add distance ad) fzero','np_mul distance ad) fzero','np_squared_mahalanobis_distance: product instead of sum (may raise)','C109'),
('Model/DistanceRun.v','|| np_underflow a b r then','then','np_mul: underflow not raised','C109'),
('Model/DistanceRun.v','let* d := generated_predict A e x length in','let* d := generated_predict A e (rev x) length in','elliptic_func: features in reverse order','C106,C107'),
('Model/Distance.v','let* k := chk_int32 (k + i) in','let* k := chk_int32 (k + j) in','eml_mahalanobis_distance_squared: wrong column','C106,C107'),
('Model/Distance.v','Ret (nadd A distance (nmul A accumulate (nsub A a b)))) (nzero A) (zrange n_features)','Ret (nadd A distance (nmul A accumulate (nsub A b a)))) (nzero A) (zrange n_features)','eml_mahalanobis_distance_squared: difference the other way in the outer product','C106,C107'),
]
