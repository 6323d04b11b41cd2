F='Model/Fft.v'
M=[
(F,'Z.lor (to_uint64 (Z.shiftl result 1)) (Z.land x 1)','Z.lor (to_uint64 (Z.shiftl result 1)) (Z.land x 3)','reverse_bits takes two bits','C40,C39'),
(F,'(zrange n) (0, x)','(zrange (n - 1)) (0, x)','reverse_bits one bit short','C40,C39'),
(F,'Z.shiftr x 1))','x))','reverse_bits never shifts x','C40,C39'),
(F,'ndiv A (nmul A (nmul A (t_of_Z T 2) (t_pi T)) (t_of_Z T i)) (t_of_Z T n)','ndiv A (nmul A (t_pi T) (t_of_Z T i)) (t_of_Z T n)','table angle is halved','C39,C61'),
(F,'let* s := zset s i (t_sin T (fft_angle i n)) in','let* s := zset s i (t_cos T (fft_angle i n)) in','table holds cos twice','C39,C61'),
(F,'(fft_sin t, fft_cos t) (zrange (n / 2)) in','(fft_sin t, fft_cos t) (zrange (n / 2 - 1)) in','table last entry not filled','C39'),
(F,'if negb (to_uint64 (fft_length t) =? n / 2) then Ret (EmlSizeMismatch, t)','if negb (to_uint64 (fft_length t) =? n) then Ret (EmlSizeMismatch, t)','fill expects n entries','C39'),
(F,'if 1 <? temp then','if 0 <? temp then','levels off by one','C39'),
(F,'(levels <? 32)','(levels <? 31)','shift by 31 taken as undefined','C39'),
(F,'if negb (p =? n) then Ret (EmlSizeMismatch, real, imag)','if negb (p <=? n) then Ret (EmlSizeMismatch, real, imag)','accepts lengths that are not powers of two','C39,C61'),
(F,'else if negb (to_uint64 (fft_length t) =? n / 2) then Ret (EmlSizeMismatch, real, imag)\n','','forward does not check the table','C39'),
(F,'if i <? j then','if i <? j + 1 then','swap also equal: harmless? swap with itself',''),
(F,'if i <? j then','if j <? n then','swaps every pair twice','C39,C40'),
(F,'let* imag := zset imag j temp in\n','','permutation loses an imaginary value','C39,C40'),
(F,'let tpre := nadd A (nmul A rl ck) (nmul A il sk) in','let tpre := nsub A (nmul A rl ck) (nmul A il sk) in','inverse transform sign in real part','C39,C61'),
(F,'nadd A (nmul A (nneg A rl) sk) (nmul A il ck)','nadd A (nmul A rl sk) (nmul A il ck)','sign of the imaginary part','C39,C61'),
(F,'let* real := zset real l (nsub A rj tpre) in','let* real := zset real l (nadd A rj tpre) in','butterfly adds twice','C39'),
(F,'let* imag := zset imag j (nadd A ij tpim) in','let* imag := zset imag j ij in','butterfly forgets the update of imag[j]','C39'),
(F,'let halfsize := size / 2 in','let halfsize := size / 2 - 1 in','halfsize off by one','C39'),
(F,'let tablestep := n / size in','let tablestep := n / 2 / size in','tablestep halved','C39'),
(F,'(zrange ((n + size - 1) / size))','(zrange ((n + size - 1) / size - 1))','last block skipped','C39'),
(F,'fft_stages fuel t n (to_uint64 (size * 2)) real imag','fft_stages fuel t n (to_uint64 (size * 4)) real imag','stages skipped','C39'),
(F,'if size <=? n then','if size <? n then','last stage skipped','C39'),
(F,'let* (real, imag) := fft_stages 65 t n 2 real imag in','let* (real, imag) := fft_stages 65 t n 4 real imag in','first stage skipped','C39'),
(F,'let* (real, imag) := fft_permute n levels real imag in\n','','no bit reversal','C39'),
(F,'match status with EmlOk => Ret real','match status with EmlSizeMismatch => Ret inp | EmlOk => Ret real','rfft returns its input on error','C61'),
(F,'let* (status, real, _) := eml_fft_forward t inp (repeat (nzero A) (Z.to_nat n_fft)) n_fft in','let* (status, real, _) := eml_fft_forward t inp inp n_fft in','rfft puts the signal in the imaginary part too','C61'),
]
M=[m for m in M if m[4]]
