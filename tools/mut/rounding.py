N='Model/Net.v'; D='Model/Distance.v'
M=[
(N,'if nleb A x (nzero A) then nzero A else x','if nleb A x (none_ A) then nzero A else x','eml_net_relu: threshold 1 instead of 0','C86,C88'),
(N,'if nleb A x (nzero A) then nzero A else x','if nleb A (nzero A) x then nzero A else x','eml_net_relu: negative part','C86,C88'),
(N,'ndiv A (none_ A) (nadd A (none_ A) (nexp A (nneg A x)))','ndiv A (none_ A) (nadd A (none_ A) (nexp A x))','eml_net_expit: sign dropped','C88'),
(N,'Definition eml_net_tanh (x : num) : num := ntanh A x','Definition eml_net_tanh (x : num) : num := nexp A x','eml_net_tanh: expf instead of tanhf','C88'),
(N,'let offset := nadd A input_max (nlog A sum) in','let offset := nlog A sum in','eml_net_softmax: maximum not added back','C88'),
(N,'Ret (nadd A s (nexp A (nsub A x input_max)))) (nzero A)','Ret (nadd A s (nexp A (nsub A x input_max)))) (none_ A)','eml_net_softmax: sum starts at 1','C88'),
(N,'zset out o (nadd A sum b)) out (zrange out_length)','zset out o sum) out (zrange out_length)','eml_net_forward: bias dropped','C86,C88'),
(N,'let* m := chk_int32 (i * out_length) in\n          let* w_idx := chk_int32 (o + m) in','let* m := chk_int32 (o * in_length) in\n          let* w_idx := chk_int32 (i + m) in','eml_net_forward: weights transposed','C86,C88'),
(N,'  | ActTanh => let* out := map_first eml_net_tanh','  | ActTanh => let* out := map_first eml_net_expit','eml_net_forward: tanh computed as logistic','C88'),
(N,'  | ActIdentity => Ret (EmlOk, out)','  | ActIdentity => let* out := map_first eml_net_relu out out_length in Ret (EmlOk, out)','eml_net_forward: relu on identity layers','C86,C88'),
(N,'(EmlOk, b1, activations2 m) (zrange (n_layers m - 2))','(EmlOk, b1, activations2 m) (zrange (n_layers m - 3))','eml_net_infer: a hidden layer skipped','C86,C88'),
(N,'if nltb A vmax v then Ret (v, i) else Ret (vmax, argmax)) (nneginf A, -1)','if nltb A vmax v then Ret (v, i + 1) else Ret (vmax, argmax)) (nneginf A, -1)','eml_net_argmax: class + 1','C86,C88'),
(N,'Ret (if nltb A (nhalf A) a then 1 else 0)','Ret (if nltb A (nhalf A) a then 0 else 1)','predict_class: binary classes swapped','C86,C88'),
(N,'Ret (if nltb A (nhalf A) a then 1 else 0)','Ret (if nltb A (nzero A) a then 1 else 0)','predict_class: threshold 0','C86,C88'),
(N,'| EmlOk => let* out := copy_buf out (activations2 m) n_outputs in Ret (EmlOk, m, out)','| EmlOk => let* out := copy_buf out (activations1 m) n_outputs in Ret (EmlOk, m, out)','eml_net_regress: wrong buffer','C86'),
(N,'Ret (out, nadd A s p)) (out, nzero A)','Ret (out, nadd A s (none_ A))) (out, nzero A)','eml_net_predict_proba: sum of ones in the check (status only)','C33'),
(N,'let* p := zget (activations2 m) i in\n             let* out := zset out i p in','let* p := zget (activations2 m) 0 in\n             let* out := zset out i p in','eml_net_predict_proba: first probability for all','C88'),
(D,'Ret (nadd A acc (nmul A p (nsub A a b)))) (nzero A) (zrange n_features) in\n      let* a := zget x1 i','Ret (nadd A acc (nmul A p (nsub A b a)))) (nzero A) (zrange n_features) in\n      let* a := zget x1 i','eml_mahalanobis_distance_squared: sign of the inner difference','C87'),
(D,'Ret (nadd A distance (nmul A accumulate (nsub A a b)))) (nzero A) (zrange n_features).\n\n(** eml_distance.h:44','Ret (nadd A distance (nmul A accumulate accumulate))) (nzero A) (zrange n_features).\n\n(** eml_distance.h:44','eml_mahalanobis_distance_squared: accumulate squared','C87'),
(D,'let dist_from_boundary := nsub A (nneg A dist) (e_decision_boundary self) in\n    let outlier','let dist_from_boundary := nsub A dist (e_decision_boundary self) in\n    let outlier','eml_elliptic_envelope_predict: distance not negated','C87'),
(D,'let outlier := if nltb A dist_from_boundary (nzero A) then 1 else 0','let outlier := if nltb A dist_from_boundary (nzero A) then 0 else 1','eml_elliptic_envelope_predict: inverted','C87'),
]
