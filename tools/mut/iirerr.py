M=[
('Model/Iir.v','let* a1 := zget coef (a + 1) in','let* a1 := zget coef (a + 2) in','eml_biquad_tdf2: a2 used for a1','C137'),
('Model/Iir.v','nsub A (nmul A b2 inp) (nmul A a2 out)','nadd A (nmul A b2 inp) (nmul A a2 out)','eml_biquad_tdf2: sign of the a2 term','C137'),
('Model/Iir.v','(nsub A (nadd A v2 (nmul A b1 inp)) (nmul A a1 out))','(nsub A (nadd A v1 (nmul A b1 inp)) (nmul A a1 out))','eml_biquad_tdf2: the first delay reads itself','C137'),
('Model/Iir.v','(nsub A (nadd A v2 (nmul A b1 inp)) (nmul A a1 out))','(nsub A (nadd A v2 (nmul A b1 inp)) (nmul A a1 inp))','eml_biquad_tdf2: feedback of the input','C137'),
('Model/Iir.v','let* b2 := zget coef (b + 2) in','let* b2 := zget coef (b + 1) in','eml_biquad_tdf2: b1 used for b2','C137'),
('Model/Iir.v','  let* mem := zset mem (s2 + 1) w2 in\n','','eml_biquad_tdf2: the second delay is not updated','C137'),
('Model/Iir.v','(zrange (i_n_stages f)).','(zrange (i_n_stages f - 1)).','eml_iir_filter: the last stage is skipped','C137'),
('Model/Iir.v','let* t2 := chk_int32 (4 * stage + 2) in','let* t2 := chk_int32 (4 * stage + 1) in','eml_iir_filter: the states of a stage overlap','C137'),
('Model/Iir.v','let out := nadd A v1 (nmul A b0 inp) in','let out := nadd A v1 (nmul A (nadd A b0 b0) inp) in','eml_biquad_tdf2: doubled b0','C137'),
('Model/Iir.v','Ret (ret ++ [y], mem)) ([], states) data','Ret (y :: ret, mem)) ([], states) data','iirfilter: outputs in reverse order','C137'),
]
