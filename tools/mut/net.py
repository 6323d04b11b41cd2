F='Model/Net.v'
M=[
(F,"if nleb A x (nzero A) then nzero A else x","if nleb A (nzero A) x then nzero A else x","relu keeps the negative part",'C32,C36'),
(F,"ndiv A (none_ A) (nadd A (none_ A) (nexp A (nneg A x)))","ndiv A (none_ A) (nadd A (none_ A) (nexp A x))","logistic of -x",'C32,C36'),
(F,"let* x := zget input i in Ret (if nltb A m x then x else m)","let* x := zget input i in Ret (if nltb A x m then x else m)","softmax subtracts the minimum (exactly equal in exact arithmetic, overflows in floats)",'C32'),
(F,"let offset := nadd A input_max (nlog A sum) in","let offset := nlog A sum in","offset without the maximum",'C32,C36'),
(F,"if nltb A vmax v then Ret (v, i) else Ret (vmax, argmax)) (nneginf A, -1)","if nleb A vmax v then Ret (v, i) else Ret (vmax, argmax)) (nneginf A, -1)","last maximum instead of the first",'C35,C33'),
(F,"(nneginf A, -1) (zrange values_length)","(nzero A, -1) (zrange values_length)","maximum search starts at 0: negative outputs ignored",'C35'),
(F,"let* m := chk_int32 (i * out_length) in","let* m := chk_int32 (i * in_length) in","weight row stride is the number of inputs",'C32,C37'),
(F,"let* w_idx := chk_int32 (o + m) in","let* w_idx := chk_int32 (i + o * in_length) in","weights read transposed",'C32,C37'),
(F,"zset out o (nadd A sum b)","zset out o sum","bias dropped",'C32,C37'),
(F,"| ActLogistic => let* out := map_first eml_net_expit out out_length in Ret (EmlOk, out)\n","| ActLogistic => Ret (EmlOk, out)\n","logistic activation not applied",'C32,C37'),
(F,"if negb (l_n_inputs layer <=? in_length) then","if negb (l_n_inputs layer <? in_length) then","full-width layers refused",'C32'),
(F,"if negb (features_length =? l_n_inputs l0) then","if negb (l_n_inputs l0 <=? features_length) then","longer rows accepted",'C32'),
(F,"| EmlOk => let* b1 := copy_buf b1 b2 bl in Ret (EmlOk, b1, b2)\n                | _ => Ret (e, b1, b2)\n                end\n              | _ => Ret (e, b1, b2)\n              end) (EmlOk, b1, activations2 m) (zrange (n_layers m - 2))","| EmlOk => Ret (EmlOk, b1, b2)\n                | _ => Ret (e, b1, b2)\n                end\n              | _ => Ret (e, b1, b2)\n              end) (EmlOk, b1, activations2 m) (zrange (n_layers m - 2))","hidden layer output not copied back",'C32'),
(F,"(zrange (n_layers m - 2)) in\n          match e","(zrange (n_layers m - 3)) in\n          match e","one hidden layer skipped",'C32'),
(F,"let* layer := zget (n_layers_arr m) (k + 1) in","let* layer := zget (n_layers_arr m) k in","first layer applied twice",'C32'),
(F,"let* out := zset out 1 a0 in","let* out := zset out 1 (nsub A (none_ A) a0) in","probability of class 1 complemented",'C33'),
(F,"if n_outputs =? 2 then\n           let* a0","if n_outputs =? 3 then\n           let* a0","binary case taken for 3 outputs",'C33'),
(F,"Ret (if nltb A (nhalf A) a then 1 else 0)","Ret (if nleb A (nhalf A) a then 1 else 0)","threshold boundary 0.5",'C33'),
(F,"Ret (if n =? 1 then 2 else n)","Ret n","binary networks report one probability",'C33'),
(F,"let* (e, m, out) := eml_net_regress m features features_length [junk] 1 in\n  match e with\n  | EmlOk => let* x := zget out 0 in Ret (x, m)\n  | _ => Ret (nnan A, m)","let* (e, m, out) := eml_net_regress m features features_length [junk] 1 in\n  match e with\n  | EmlOk => let* x := zget out 0 in Ret (x, m)\n  | _ => let* x := zget out 0 in Ret (x, m)","uninitialised memory returned on error",'C33'),
(F,"let* b1 := copy_buf a1 inp in_length in","let* b1 := Ret a1 in","inline code never copies its input",'C34'),
(F,"Ret (mk_layer (py_n_out l) (py_n_in l) (List.concat (py_weights l))","Ret (mk_layer (py_n_in l) (py_n_out l) (List.concat (py_weights l))","layer sizes swapped in the struct",'C37,C32'),
(F,"if String.eqb name \"sigmoid\" then \"logistic\"%string","if String.eqb name \"sigmoid\" then \"tanh\"%string","sigmoid converted to tanh",'C37'),
(F,"| KDropout => Ret acc","| KDropout => set_activation acc \"identity\"","Dropout resets the activation",'C37'),
(F,"let* acc := foldM keras_step [] layers in Ret (rev acc)","let* acc := foldM keras_step [] layers in Ret acc","layers in reverse order",'C37'),
(F,"if vmax <? v then Ret (v, i) else Ret (vmax, argmax)) (v0, -1)","if vmax <? v then Ret (v, i) else Ret (vmax, argmax)) (v0, 0)","(repaired program: the refutation must fail)",'C35'),
(F,"if nltb A max_value value then (i, value)","if nltb A max_value value then (i, max_value)","maximum not updated",'C35'),
(F,"| x :: r => Ret (fold_left Z.max r x)","| x :: r => Ret x","activation buffers sized for the first layer only",'C32'),
(F,"else if String.eqb name \"tanh\" then Ret (\"EmlNetActivationTanh\"%string, ActTanh)\n  else Err ValueError_","else Ret (\"EmlNetActivationTanh\"%string, ActTanh)","unknown activations silently become tanh",'C37'),
]
