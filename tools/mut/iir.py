F='Model/Iir.v'
M=[
(F,'nadd A v1 (nmul A b0 inp)','nadd A v2_ (nmul A b0 inp)','placeholder','C38'),
]
M=[
(F,'let out := nadd A v1 (nmul A b0 inp) in','let out := nsub A v1 (nmul A b0 inp) in','eml_biquad_tdf2 subtracts b0*x','C38'),
(F,'(nsub A (nadd A v2 (nmul A b1 inp)) (nmul A a1 out))','(nadd A (nadd A v2 (nmul A b1 inp)) (nmul A a1 out))','eml_biquad_tdf2 sign of a1','C38,C57'),
(F,'(nsub A (nadd A v2 (nmul A b1 inp)) (nmul A a1 out))','(nsub A (nadd A v2 (nmul A b1 inp)) (nmul A a1 inp))','eml_biquad_tdf2 feeds back input','C38,C57'),
(F,'(nsub A (nmul A b2 inp) (nmul A a2 out))','(nsub A (nmul A b2 out) (nmul A a2 inp))','eml_biquad_tdf2 swaps in and out','C38,C57'),
(F,'let* mem := zset mem (s2 + 1) w2 in\n','','eml_biquad_tdf2 second state never shifted','C38,C57'),
(F,'let* mem := zset mem (s1 + 1) w1 in\n','','eml_biquad_tdf2 first state never shifted','C38,C57'),
(F,'let* c3 := chk_int32 (6 * stage + 3) in','let* c3 := chk_int32 (6 * stage + 2) in','eml_iir_filter denominator at the wrong offset','C38,C57'),
(F,'let* c0 := chk_int32 (6 * stage + 0) in','let* c0 := chk_int32 (6 + 0) in','eml_iir_filter always second section numerator','C38,C57'),
(F,'let* t2 := chk_int32 (4 * stage + 2) in','let* t2 := chk_int32 (4 * stage + 1) in','eml_iir_filter states overlap','C38,C57'),
(F,'let* t0 := chk_int32 (4 * stage + 0) in','let* t0 := chk_int32 (3 * stage + 0) in','eml_iir_filter stages share state','C38,C57'),
(F,'(i_states f + t0) (i_states f + t2)','t0 t2','eml_iir_filter ignores the filter state pointer','C38'),
(F,'(inp, mem) (zrange (i_n_stages f))','(inp, mem) (zrange (i_n_stages f - 1))','eml_iir_filter skips the last section','C38,C57'),
(F,'i_coefficients f) c3 c0 out)','i_coefficients f) c3 c0 inp)','eml_iir_filter parallel instead of cascade','C38,C57'),
(F,'if negb (1 <=? i_n_stages f)','if negb (0 <=? i_n_stages f)','eml_iir_check accepts zero stages','C38'),
(F,'chk_int32 (i_n_stages f * 4)','chk_int32 (i_n_stages f * 2)','eml_iir_check states length','C38,C57'),
(F,'chk_int32 (i_n_stages f * 6)','chk_int32 (i_n_stages f * 5)','eml_iir_check coefficients length','C38,C57'),
(F,'Ret (ret ++ [y], mem)) ([], states) data','Ret (ret ++ [y], states)) ([], states) data','iirfilter resets the state for every sample','C57'),
]
