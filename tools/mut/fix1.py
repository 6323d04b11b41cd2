M=[
('Model/TreesC.v','if value <? point then cn_left n else cn_right n','if value <=? point then cn_left n else cn_right n','branch taken','C11,C05'),
('Model/TreesInline.v','if lt x v then run_tree features l else run_tree features r','if lt x v then run_tree features r else run_tree features l','branch taken by inline code','C11'),
('Model/TreesConvert.v','(old_encoded, - new_idx - 1) :: remap','(old_encoded, - old_idx - 1) :: remap','references follow de-duplicated leaves','C03'),
]
