M=[
('Model/TreesC.v','let class_proportion := fdiv (f_of_Z b) (f_of_Z 255) in','let class_proportion := fdiv (f_of_Z b) (f_of_Z 256) in','add_proportions: divided by 256','C139'),
('Model/TreesC.v','let class_proportion := fdiv (f_of_Z b) (f_of_Z 255) in','let class_proportion := fdiv (f_of_Z b) (f_of_Z 127) in','add_proportions: divided by 127','C139'),
('Model/TreesC.v','let* leaf_offset := chk_int32 (leaf_number * (1 * et_n_classes self)) in','let* leaf_offset := chk_int32 (leaf_number * (1 * et_n_classes self) + 1) in','vote_soft: offset one too large','C139,C140'),
('Model/TreesC.v','let* leaf_offset := chk_int32 (leaf_number * (1 * et_n_classes self)) in','let* leaf_offset := chk_int32 leaf_number in','vote_soft: the number of the leaf used as offset','C139,C140'),
('Model/TreesC.v','      let* out1 := foldM (vote_soft self features) out0 (zrange (et_n_trees self)) in\n      let* out2 := mean_out out1 out_length (et_n_trees self) in','      let* out1 := foldM (vote_soft self features) out0 (zrange (et_n_trees self)) in\n      let* out2 := Ret out1 in','eml_trees_predict_proba: sums not divided','C139'),
('Model/TreesC.v','foldM (vote_soft self features) out0 (zrange (et_n_trees self))','foldM (vote_soft self features) out0 (zrange (et_n_trees self - 1))','eml_trees_predict_proba: the last tree is left out','C139,C140'),
('Model/TreesC.v','foldM (vote_soft self features) out0 (zrange','foldM (vote_soft self features) out (zrange','eml_trees_predict_proba: output not cleared','C139,C140'),
('Model/TreesC.v','if (leaf_bits =? 0) || (leaf_bits =? 32) then leaf_bits else 8 in','leaf_bits in','generate_c_loadable: leaf_bits of the model written to the struct','C139,C140'),
('Model/TreesC.v','if fltb v x then Ret (i, x) else Ret (c, v)','if fltb x v then Ret (i, x) else Ret (c, v)','argmax_f32: smallest','C140'),
('Model/TreesC.v','if fltb v x then Ret (i, x) else Ret (c, v)','if fltb v x then Ret (i, v) else Ret (c, v)','argmax_f32: the maximum is not kept','C140'),
('Model/TreesInline.v','let* offset := chk_int32 (ip_n_classes p * leaf) in','let* offset := chk_int32 (ip_n_classes p * leaf + 1) in','inline_soft_step: offset one too large','C139,C140'),
('Model/TreesInline.v','  let* out1 := foldM (inline_soft_step p features) out0 (ip_trees p) in\n  let* out2 := mean_out out1 out_length (zlen (ip_trees p)) in','  let* out1 := foldM (inline_soft_step p features) out0 (ip_trees p) in\n  let* out2 := mean_out out1 out_length (ip_n_classes p) in','inline_proba_soft: divided by the number of classes','C139'),
('Model/TreesInline.v','  let* out1 := foldM (inline_soft_step p features) out0 (ip_trees p) in\n  argmax_f32','  let* out1 := foldM (inline_soft_step p features) out0 (tl (ip_trees p)) in\n  argmax_f32','inline_predict_soft: the first tree is left out','C140'),
('Model/TreesInline.v','  if ip_leaf_bits p =? 0 then inline_proba_hard p features out out_length\n  else inline_proba_soft','  if ip_leaf_bits p <? 4 then inline_proba_hard p features out out_length\n  else inline_proba_soft','inline_predict_proba: hard voting for few bits','C139'),
('Model/TreesWrapper.v','  let steps := 2 ^ bits - 1 in','  let steps := 2 ^ (bits - 1) in','quantize_probabilities_into_byte: half as many levels','C139,C140'),
('Model/TreesWrapper.v','Definition quantize1 (k : Z) (x : f64) : f64 := frint (fmul x (f_of_Z k)).','Definition quantize1 (k : Z) (x : f64) : f64 := f_of_Z (ftrunc (fmul x (f_of_Z k))).','quantize1: truncated, not rounded','C139'),
('Model/TreesWrapper.v','to_uint8 (ftrunc (fmul (fdiv q (f_of_Z k)) (f_of_Z 255)))','to_uint8 (ftrunc (fmul (fdiv q (f_of_Z k)) (f_of_Z 256)))','scale_byte: scaled to 256 and wrapped','C139,C140'),
('Model/TreesWrapper.v','else if (0 <? leaf_bits) && (leaf_bits <=? 8) then LeafProbabilities','else if (0 <? leaf_bits) && (leaf_bits <? 8) then LeafProbabilities','choose_leaf: eight bits taken for hard voting','C139,C140'),
('Model/TreesWrapper.v','| LProba x, LProba y => list_eqb x y','| LProba x, LProba y => list_eqb (tl x) (tl y)','pyleaf_eqb: leaves with different first class merged','C139,C140'),
]
