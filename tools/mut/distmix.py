D='Model/Distance.v'; F='Model/Mixture.v'
M=[
(D,'let* k := chk_int32 (k + i) in','let* k := chk_int32 (k + j) in','eml_mahalanobis uses only the diagonal','C43'),
(D,'let* k := chk_int32 (j * n_features) in','let* k := chk_int32 (i * n_features) in','eml_mahalanobis wrong row index (sums column entries of the diagonal block)','C43'),
(D,'nadd A acc (nmul A p (nsub A a b))','nadd A acc (nmul A p (nadd A a b))','eml_mahalanobis adds the mean','C43'),
(D,'Ret (nadd A distance (nmul A accumulate (nsub A a b)))','Ret (nadd A distance (nmul A accumulate accumulate))','eml_mahalanobis squares the accumulator','C43'),
(D,'nsub A (nneg A dist) (e_decision_boundary self)','nsub A dist (e_decision_boundary self)','eml_elliptic_envelope sign of distance','C43'),
(D,'nsub A (nneg A dist) (e_decision_boundary self)','nadd A (nneg A dist) (e_decision_boundary self)','eml_elliptic_envelope sign of boundary','C43'),
(D,'if nltb A dist_from_boundary (nzero A) then 1 else 0','if nltb A (nzero A) dist_from_boundary then 1 else 0','eml_elliptic_envelope inverted','C43'),
(D,'if nltb A dist_from_boundary (nzero A) then 1 else 0','if nleb A dist_from_boundary (nzero A) then 1 else 0','eml_elliptic_envelope <= instead of <','C43'),
(D,'mk_envelope (zlen means) offset means (List.concat precision)','mk_envelope (zlen means) (nneg A offset) means (List.concat precision)','generate_code negates the offset','C43'),
(D,'let* row := pyget precision i in','let* row := pyget precision 0 in','python distance uses row 0','C43'),
(F,'let mx := if nltb A mx value then value else mx in','let mx := mx in','eml_minmax never updates max','C44'),
(F,'Ret (nadd A (nlog A sum) a_max)','Ret (nlog A sum)','eml_logsumexp forgets to add the maximum back','C44,C59'),
(F,'(nexp A (nsub A v a_max))','(nexp A v)','eml_logsumexp does not scale','C44'),
(F,'let* k := chk_int32 (k + f) in','let* k := chk_int32 (k + p) in','mixture reads the wrong column','C44'),
(F,'let* k := chk_int32 (p * n) in','let* k := chk_int32 (f * n) in','mixture: transposed-like index','C44'),
(F,'let* precisions := chk_int32 (means * n) in','let* precisions := chk_int32 0 in','mixture uses the first component precisions','C44'),
(F,'let y := nsub A dot_x dot_m in','let y := nadd A dot_x dot_m in','mixture adds instead of subtracting','C44'),
(F,'Ret (nadd A log_prob (nmul A y y))','Ret (nmul A y y)','mixture keeps only the last feature','C44'),
(F,'(nneg A (nhalf A))','(nhalf A)','mixture sign of the exponent','C44'),
(F,'zset out c (nadd A o lw)','zset out c o','mixture forgets the weights','C44'),
(F,'(nadd A (nmul A (of_int n) log_2pi) log_prob)','log_prob','mixture forgets the normalisation','C44'),
(F,'(18378770664093453 / 10000000000000000)%R','(18378770664193453 / 10000000000000000)%R','EML_LOG_2PI wrong in the 11th digit','C44'),
(F,'zset r i (nsub A p out_score)','zset r i p','predict_proba not normalised','C44'),
(F,'let* x := zget r i in zset r i (nexp A x)','let* x := zget r i in zset r i x','predict_proba stays in log space','C44'),
(F,'if i =? j then nth (Z.to_nat i) a (nzero A) else nzero A','if i =? j then nth 0 a (nzero A) else nzero A','diag conversion repeats the first entry','C44'),
(F,'nmul A v (if i =? j then none_ A else nzero A)','nmul A v (none_ A)','spherical conversion fills the matrix','C44'),
(F,'Ret (map (fun _ => l) (zrange n_components))','Ret [l]','tied conversion does not repeat','C44'),
(F,'Ret (nadd A s (nlog A x))','Ret (nadd A s x)','log determinant without log','C44'),
(F,'if best <? v then (v, i, i + 1)','if best <=? v then (v, i, i + 1)','argmax takes the last greatest','C59'),
(F,'if best <? v then (v, i, i + 1)','if v <? best then (v, i, i + 1)','argmin','C59'),
]
