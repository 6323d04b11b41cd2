F='Model/Fft.v'; G='Model/Audio.v'
M=[
(F,'(nmul (t_D T) (t_D_of_Z T 2) (t_D_pi T))','(nmul (t_D T) (t_D_of_Z T 1) (t_D_pi T))','turn: half the angle','C126,C127,C130'),
(F,'f_of_ZE 7074237752028440 (-51)','f_of_ZE 7073747752028440 (-51)','M_PI: a wrong digit (3.1413...)','C126,C127,C130'),
(F,'let* c := zset c i (t_cos T (fft_angle i n)) in','let* c := zset c i (t_sin T (fft_angle i n)) in','eml_fft_fill: sin stored in the cos table','C126,C127'),
(F,'let* s := zset s i (t_sin T (fft_angle i n)) in','let* s := zset s i (t_sin T (fft_angle i (n + 1))) in','eml_fft_fill: sin divided by n + 1','C126,C127'),
(F,'(fft_sin t, fft_cos t) (zrange (n / 2)) in','(fft_sin t, fft_cos t) (zrange (n / 2 - 1)) in','eml_fft_fill: last entry not written','C126,C127'),
(F,'nadd A (nmul A (nneg A rl) sk) (nmul A il ck)','nadd A (nmul A rl sk) (nmul A il ck)','fft_butterfly: sign of the imaginary part','C126,C127'),
(F,'let* imag := zset imag l (nsub A ij tpim) in','let* imag := zset imag l (nadd A ij tpim) in','fft_butterfly: imaginary part added twice','C126'),
(F,'let tablestep := n / size in','let tablestep := size / 2 in','fft_stages: wrong table step','C126,C127'),
(F,'let* (real, imag) := fft_permute n levels real imag in','let* (real, imag) := Ret (real, imag) in','eml_fft_forward: no bit reversal','C126,C127'),
(F,'if size =? n then Ret (real, imag)','if size * 2 =? n then Ret (real, imag)','fft_stages: last stage left out','C126,C127'),
(F,'let* (_, t) := eml_fft_fill (mk_fft n_fft_table zeros zeros) n_fft in','let t := mk_fft n_fft_table zeros zeros in','rfft_py: table not filled','C127'),
(F,'match status with EmlOk => Ret real | _ => Err RuntimeError_ end.\nEnd Fft','match status with EmlOk => Ret (firstn (Z.to_nat (1 + n_fft / 2)) real) | _ => Err RuntimeError_ end.\nEnd Fft','rfft_py: only half of the outputs','C127'),
(G,'(turn A T i (length - 1))','(turn A T i length)','eml_signal_hann_apply: divides by length','C130'),
(G,'(nsub (t_D T) (none_ (t_D T)) (t_D_cos T','(nadd (t_D T) (none_ (t_D T)) (t_D_cos T','eml_signal_hann_apply: 1 + cos','C130'),
(G,'zset data i (nmul A m x)) data (zrange length) in','zset data i (nmul A m x)) data (zrange (length - 1)) in','eml_signal_hann_apply: last sample not windowed','C130'),
(G,'Ret (ndiv A sum (of_Z length)).','Ret (ndiv A sum (of_Z (length + 1))).','eml_signal_mean: divides by length + 1','C130'),
(G,'Ret (nadd A sum x)) (nzero A) (zrange length) in','Ret (nadd A sum x)) (nzero A) (zrange (length - 1)) in','eml_signal_mean: last sample left out','C130'),
(G,'(output, offset) (zrange (stop - start + 1)))','(output, offset) (zrange (stop - start)))','eml_sparse_filterbank: stop excluded','C128,C129'),
(G,'let* f := zget lut offset in','let* f := zget lut d in','eml_sparse_filterbank: offset not carried over','C128,C129'),
(G,'let* output := zset output i (nadd A o (nmul A x f)) in','let* output := zset output i (nmul A x f) in','eml_sparse_filterbank: overwrites instead of adding','C128,C129'),
(G,'  if negb (zlen starts =? zlen stops) then Err RuntimeError_\n','  if negb (zlen starts <=? zlen stops) then Err RuntimeError_\n','sparse_filterbank_py: more stops than starts accepted','C128'),
(G,'      let* start := zget starts i in\n      let* stop := zget stops i in\n      foldM','      let* start := zget starts i in\n      let* stop := zget stops i in\n      if stop <? start then Err RuntimeError_ else foldM','eml_sparse_filterbank: empty filters are refused','C128,C129'),
]
