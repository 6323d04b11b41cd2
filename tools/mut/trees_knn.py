T='Model/TreesConvert.v'; C='Model/TreesC.v'; I='Model/TreesInline.v'; W='Model/TreesWrapper.v'; N='Model/Neighbors.v'; Q='Model/Qsort.v'
M=[
(N,'Z.shiftr r 1 in','r in','isqrt returns floor(sqrt x)','C18'),
(N,'if 0 <=? t then','if 0 <? t then','isqrt of perfect squares','C18'),
(N,'if m <? v then','if m <=? v then','lowest label wins ties','C20'),
(N,'zget b (off + i)','zget b i','distance to item i','C20'),
(N,'if (label <? 0) || (EML_NEIGHBORS_MAX_CLASSES <=? label) then','if (label <? 0) || (EML_NEIGHBORS_MAX_CLASSES <? label) then','label 10 must be refused','C20'),
(N,'if negb (k <=? distances_length)','if negb (k <? distances_length)','k = n_items accepted','C20'),
(N,'(nm_n_items self <? nm_max_items self)','(nm_n_items self <=? nm_max_items self)','no more than max_items accepted','C21'),
(N,'let* labels := zset (nm_labels self) index label in','let* labels := zset (nm_labels self) n_items label in','label stored in the slot of its row','C21'),
(N,'if data_length <? expect','if expect <? data_length','check refuses small buffers','C53'),
(Q,'if l2 =? r2 then Ret (st, l1, r1)','if l2 =? r2 then Ret (st, l2, r2)','array sorted','C19'),
(Q,'if r - i <=? j - l then','if j - l <=? r - i then','stack depth logarithmic','C19'),
(Q,'if j <=? i then Ret (a, j)','if j <? i then Ret (a, j)','partition terminates correctly','C19'),
(Q,'foldM (fun a k => q_sift (S (length a)) a l (l + 1 + k)) a (zrange (r - l))','foldM (fun a k => q_sift (S (length a)) a l (l + 1 + k)) a (zrange (r - l - 1))','last element sorted','C19'),
(T,'if 0 <=? c then c + node_off else c - leaf_off','if 0 <=? c then c + node_off else c + leaf_off','leaf references of later trees','C02'),
(T,'if 0 <=? c then dict_get m c else Ret c','if 0 <? c then dict_get m c else Ret c','references renumbered','C01'),
(T,'(- new_idx - 1) :: remap','(- old_idx - 1) :: remap','references follow de-duplicated leaves','C03'),
(T,'(mk_dnode feature th left\' right\')','(mk_dnode feature th right\' left\')','left and right not swapped','C01'),
(C,'if value <? point then cn_left n else cn_right n','if value <=? point then cn_left n else cn_right n','branch taken','C11,C05'),
(C,'Ret (to_int16 (- node_idx - 1))','Ret (to_int16 (- node_idx))','leaf number','C05,C07'),
(C,'chk_int32 (node_idx + child)','chk_int32 child','relative child offsets','C05,C07'),
(C,'if fltb v x then Ret (i, x)','if fleb v x then Ret (i, x)','first maximum','C07'),
(C,'let* leaf_offset := chk_int32 (leaf_number * (1 * et_n_classes self)) in','let* leaf_offset := chk_int32 leaf_number in','proportions of the leaf','C10'),
(C,'if EMTREES_MAX_CLASSES <? et_n_classes self','if EMTREES_MAX_CLASSES + 1 <? et_n_classes self','votes array bound','C14'),
(I,'let* offset := chk_int32 (ip_n_classes p * leaf) in','let* offset := chk_int32 leaf in','inline soft proportions','C10'),
(I,'if lt x v then run_tree features l else run_tree features r','if lt x v then run_tree features r else run_tree features l','inline branch','C09'),
(W,'let steps := 2 ^ bits - 1 in','let steps := 2 ^ bits in','quantised probability error bound','C12'),
(W,'if max_features <? n_features then Err','if max_features + 1 <? n_features then Err','feature index fits int8','C07'),
(W,'if b =? 1 then 0 else b','b','leaf_bits=1 means hard voting','C07'),
]
