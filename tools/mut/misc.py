Q='Model/Quantizer.v'; P='Model/Pareto.v'
M=[
(P,'existsb (fun ab => fltb (fst ab) (snd ab))','existsb (fun ab => fleb (fst ab) (snd ab))','any_lower: <= keeps dominated points','C47'),
(P,'existsb (fun ab => fltb (fst ab) (snd ab))','forallb (fun ab => fltb (fst ab) (snd ab))','any_lower: numpy.all','C47'),
(P,'zset is_efficient i true','Ret is_efficient','is_pareto_efficient_simple: the point itself not kept','C47'),
(P,'(mask_select is_efficient costs)','costs','is_pareto_efficient_simple: compares all points','C47'),
(P,'(if higher_is_better then map Bopp perf else perf)','perf','find_pareto_front: score not negated','C47'),
(P,'(df_values2 score cost)','(df_values2 cost cost)','find_pareto_front: performance ignored','C47'),
(P,'map (fun v => fleb mp v) perf else','map (fun v => fltb mp v) perf else','find_pareto_front: strict threshold','C47'),
(P,'else map (fun v => fleb v mp) perf','else map (fun v => fleb mp v) perf','find_pareto_front: threshold direction for lower-is-better','C47'),
(P,'fst ab && snd ab','fst ab || snd ab','find_pareto_front: or instead of and','C47'),
(P,'Ret (df_select df pp).','Ret df.','find_pareto_front: no selection','C47'),
(Q,'Definition max_value : f32 := f_of_Z 32767.','Definition max_value : f32 := f_of_Z 32768.','max_value: 32768','C45'),
(Q,'Definition min_value : f32 := f_of_Z (-32767).','Definition min_value : f32 := f_of_Z (-32768).','min_value: -32768','C45'),
(Q,'if fltb scaled min_value then','if fleb scaled min_value then','check_forward: counts values at the limit','C45'),
(Q,'if fltb max_value scaled then','if fleb max_value scaled then','check_forward: counts values at the limit (above)','C45'),
(Q,'let* u := chk_int32 (underflows + 1) in Ret (u, min_value)','let* u := chk_int32 (underflows + 1) in Ret (u, scaled)','check_forward: not clamped','C45'),
(Q,'let* o := chk_int32 (overflows + 1) in Ret (o, max_value)','Ret (overflows, max_value)','check_forward: overflows not counted','C45'),
(Q,'let scaled := fmul v scale in','let scaled := fdiv v scale in','check_forward: divides','C45'),
(Q,'if negb (out_length =? values_length) then Ret (EmlSizeMismatch, out, underflows_out, overflows_out)','if out_length <? values_length then Ret (EmlSizeMismatch, out, underflows_out, overflows_out)','check_forward: accepts longer outputs','C45'),
(Q,'zset out i (fdiv (f_of_Z v) scale)','zset out i (fmul (f_of_Z v) scale)','inverse: multiplies','C45'),
(Q,'if negb (out_length =? values_length) then Ret (EmlSizeMismatch, out)\n','if negb (values_length <=? out_length) then Ret (EmlSizeMismatch, out)\n','inverse: accepts longer outputs','C45'),
(Q,'let y := if fltb x lo then lo else x in','let y := x in','np_clip: no lower limit','C46'),
(Q,'if fltb hi y then hi else y.','y.','np_clip: no upper limit','C46'),
(Q,'None => iinfo_max d end.','None => iinfo_max d + 1 end.','get_out_max: one too many','C46'),
(Q,'if fltb hi (Bopp lo) then Bopp lo else hi','hi','fit: negative values ignored','C66'),
(Q,'if fltb hi (Bopp lo) then Bopp lo else hi','if fltb (Bopp lo) hi then Bopp lo else hi','fit: smaller magnitude','C66'),
(Q,'fdiv (f_of_Z out_max) largest.','fdiv largest (f_of_Z out_max).','fit: inverted scale','C66'),
(Q,'(fun m x => if fltb x m then x else m)','(fun m x => if fltb m x then x else m)','np_min is max','C66'),
(Q,'let out := fmul x scale in','let out := fdiv x scale in','transform divides','C46,C66'),
(Q,'cast_to (iinfo_min d) (iinfo_max d) out) X.','cast_to (iinfo_min d) (iinfo_max d) (fmul x scale)) X.','transform: not clipped','C46'),
(Q,'fdiv out scale) X.','fmul out scale) X.','inverse_transform multiplies','C46'),
]
