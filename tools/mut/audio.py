F='Model/Audio.v'
M=[
(F,'Definition eml_max (a b : num) : num := if nltb A b a then a else b.','Definition eml_max (a b : num) : num := if nltb A a b then a else b.','max is min','C63'),
(F,'Definition eml_min (a b : num) : num := if nltb A a b then a else b.','Definition eml_min (a b : num) : num := if nltb A b a then a else b.','min is max','C63'),
(F,'Ret (ndiv A sum (of_Z length)).','Ret (ndiv A sum (of_Z (length - 1))).','mean divides by n-1','C65'),
(F,'(of_Z i)) (of_Z (length - 1)))))','(of_Z i)) (of_Z length))))','periodic Hann window','C65,C64'),
(F,'nmul A (nhalf A) (nsub A (none_ A) (t_cos T','nmul A (nhalf A) (nadd A (none_ A) (t_cos T','Hann window upside down','C65,C64'),
(F,'let spec_length := 1 + Z.quot n_fft 2 in\n  if negb','let spec_length := Z.quot n_fft 2 in\n  if negb','power spectrum one bin short','C62'),
(F,'if negb (spec_length <? v_length rfft) then Ret (EmlSizeMismatch, ob)','if negb (spec_length <=? v_length rfft) then Ret (EmlSizeMismatch, ob)','power spectrum accepts equal length','C62'),
(F,'else if negb (v_length out =? spec_length) then Ret (EmlSizeMismatch, ob)','else if negb (v_length out <=? spec_length) then Ret (EmlSizeMismatch, ob)','power spectrum accepts short output','C62'),
(F,'let scale := ndiv A (none_ A) (of_Z n_fft) in','let scale := ndiv A (none_ A) (of_Z spec_length) in','scaled by 1/spec_length','C62,C64'),
(F,'let* x := zget rb (v_start rfft + i) in\n        let a','let* x := zget rb i in\n        let a','start of rfft ignored','C62'),
(F,'zset ob (v_start out + i) (nmul A scale','zset ob i (nmul A scale','start of out ignored','C62'),
(F,'nmul A (of_Z 2595) (mf_log10','nmul A (of_Z 2600) (mf_log10','mel scale constant','C63'),
(F,'nadd A (none_ A) (ndiv A hz (of_Z 700))','nadd A (none_ A) (ndiv A hz (of_Z 1000))','mel scale break frequency','C63'),
(F,'(mf_pow10 M (ndiv A mels (of_Z 2595))) (none_ A)).','(mf_pow10 M (ndiv A mels (of_Z 2595))) (nzero A)).','inverse mel forgets -1','C63'),
(F,'let* n1 := chk_int32 (n_mels params + 1) in','let* n1 := chk_int32 (n_mels params) in','melstep over n_mels','C63'),
(F,'let m := nadd A melmin (nmul A (of_Z n) melstep) in','let m := nmul A (of_Z n) melstep in','melmin forgotten','C63'),
(F,'let* n1 := chk_int32 (n_fft params + 1) in','let* n1 := chk_int32 (n_fft params + 2) in','bins for n_fft+2','C63,C42'),
(F,'let end_ := ndiv A (of_Z (samplerate params)) (of_Z 2) in','let end_ := of_Z (samplerate params) in','bin frequencies up to samplerate','C63'),
(F,'let steps := (1 + Z.quot (n_fft params) 2) - 1 in','let steps := (1 + Z.quot (n_fft params) 2) in','one step too many','C63'),
(F,'  else if max_bin <? rgt then Ret (EmlUnknownError, nzero A)\n','','no check of the right bin','C42'),
(F,'if lft <? 0 then Ret (EmlUnknownError, nzero A)\n  else ','','no check of the left bin','C42'),
(F,'(zrange (center - lft + 1)) in','(zrange (center - lft)) in','lower loop stops before the center','C63'),
(F,'val (zrange (rgt - center)) in','val (zrange (rgt - center + 1)) in','upper loop one too far','C42,C63'),
(F,'let r := nsub A c2 (eml_fft_freq params (k + 1)) in','let r := nsub A c2 (eml_fft_freq params k) in','upper weight from bin k','C63'),
(F,'let* x := zget sb (v_start spec + (k + 1)) in','let* x := zget sb (v_start spec + k) in','upper loop reads bin k','C63'),
(F,'let* x := zget sb (v_start spec + k) in','let* x := zget sb k in','start of spec ignored','C42'),
(F,'let fdiffupper := nsub A c2 c1 in','let fdiffupper := nsub A c1 c0 in','upper slope uses lower width','C63'),
(F,'let* max_bin := chk_int32 (1 + Z.quot (n_fft params) 2) in','let* max_bin := chk_int32 (Z.quot (n_fft params) 2) in','max_bin one lower','C42'),
(F,'if negb (max_bin <=? v_length spec) then Ret (EmlSizeMismatch, mb)\n  else ','','spec length not checked','C42'),
(F,'if negb (n_mels params =? v_length mels) then Ret (EmlSizeMismatch, mb)\n  else','if false then Ret (EmlSizeMismatch, mb)\n  else','mels length not checked','C42'),
(F,'let* mb := zset mb (v_start mels + (m - 1)) val in Ret (EmlOk, mb)','let* mb := zset mb (v_start mels + m) val in Ret (EmlOk, mb)','mels written one later','C42,C63'),
(F,'| EmlOk => let* mb := zset mb (v_start mels + (m - 1)) val in Ret (EmlOk, mb)\n          | _ => Ret (e, mb)','| EmlOk => let* mb := zset mb (v_start mels + (m - 1)) val in Ret (EmlOk, mb)\n          | _ => Ret (EmlOk, mb)','errors of filters dropped','C42'),
(F,'let* (e, inout) := eml_signal_hann_apply inout inout_length in','let* (e, inout) := Ret (EmlOk, inout) in','no window','C64'),
(F,'let* (e, temp) := eml_vector_set_value temp (mk_vec 0 temp_length) (nzero A) in','let* (e, temp) := Ret (EmlOk, temp) in','imaginary parts not cleared','C64'),
(F,'eml_audio_power_spectrogram inout (mk_vec 0 inout_length) temp view (n_fft params) in','eml_audio_power_spectrogram temp (mk_vec 0 temp_length) temp view (n_fft params) in','power of the imaginary parts','C64'),
(F,'if negb (zlen inp =? n_fft) then Err RuntimeError_','if negb (n_fft <=? zlen inp) then Err RuntimeError_','melspectrogram accepts longer input','C64'),
(F,'let* output := foldM (fun o i => zset o i (nzero A)) output (zrange output_length) in','let* output := Ret output in','output not cleared','C41'),
(F,'let* x := zget input j in\n          let* output','let* x := zget input offset in\n          let* output','input read at offset','C41'),
(F,'let* offset := chk_int32 (offset + 1) in','let* offset := chk_int32 (offset) in','offset not advanced in C','C41'),
(F,'(output, offset) (zrange (stop - start + 1)))','(output, offset) (zrange (stop - start)))','stop excluded in C','C41'),
(F,'let* last := pyget nonzero (-1) in','let* last := pyget nonzero (0) in','end is the first nonzero','C41'),
(F,'Ret (starts ++ [first], ends ++ [last], coeffs ++ vals)','Ret (starts ++ [first], ends ++ [last], vals)','coefficients of earlier filters dropped','C41'),
(F,'do* py_assert (zlen starts =? zlen ends);\n','','lengths not compared in Python','C41'),
(F,'if negb (zlen starts =? zlen stops) then Err RuntimeError_','if negb (zlen starts <=? zlen stops) then Err RuntimeError_','lengths not compared in the binding','C41'),
(F,'(out, offset) (zrange (e + 1 - s)))','(out, offset) (zrange (e - s)))','end excluded in Python','C41'),
(F,'Ret (out, offset + 1))','Ret (out, offset))','offset not advanced in Python','C41'),
]
