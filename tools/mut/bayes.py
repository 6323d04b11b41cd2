F='Model/FixedPoint.v'; B='Model/Bayes.v'
M=[
(F,"let half := Z.quot b 2 in","let half := 0 in","division truncates instead of rounding",'C28'),
(F,"((temp <? 0) && (b <? 0))","((temp <=? 0) && (b <? 0))","boundary: zero numerator with negative divisor",'C28'),
(F,"then chk_int64 (temp + half) else chk_int64 (temp - half)","then chk_int64 (temp + half) else chk_int64 (temp + half)","negative quotients rounded the wrong way",'C28'),
(F,"let* temp := chk_int64 (a * 2 ^ EML_Q16_FRACT_BITS) in","let* temp := chk_int32 (a * 2 ^ EML_Q16_FRACT_BITS) in","numerator not widened to 64 bits",'C28'),
(F,"chk_int32 (Z.shiftr x (EML_Q16_FRACT_BITS / 2) * Z.shiftr y (EML_Q16_FRACT_BITS / 2))","chk_int32 (Z.shiftr (x * y) EML_Q16_FRACT_BITS) ","(equivalent or better program: product shifted afterwards; only the range claim at 2^23 could change)",'C31'),
(F,"chk_int32 (Z.shiftr x (EML_Q16_FRACT_BITS / 2) * Z.shiftr y (EML_Q16_FRACT_BITS / 2))","chk_int32 (Z.shiftr x (EML_Q16_FRACT_BITS / 2) * Z.shiftr x (EML_Q16_FRACT_BITS / 2))","multiplies x by itself",'C29'),
(F,"Definition EML_Q16_TOINT (x : Z) : Z := Z.shiftr x EML_Q16_FRACT_BITS.","Definition EML_Q16_TOINT (x : Z) : Z := Z.shiftr x 15.","wrong shift",'C29'),
(F,"Definition to_float (n : Z) (fraction_bits : Z) : f64 := fdiv (f_of_Z n) (f_of_Z (2 ^ fraction_bits)).","Definition to_float (n : Z) (fraction_bits : Z) : f64 := fdiv (f_of_Z n) (f_of_Z (2 ^ (fraction_bits + 1))).","to_float off by a factor",'C29'),
(B,"if x <? p1 then log2_up","if x <=? p1 then log2_up","boundary in the scaling loop (x = 2^p): still correct mathematically via the second loop? result must stay within bound",'C30'),
(B,"(y_sub y p1)","(y_add y p1)","log of small numbers gets the wrong sign",'C30'),
(B,"log2_down fuel' p1 p2 (Z.shiftr x 1) (y_add y p1)","log2_down fuel' p1 p2 (Z.shiftr x 1) y","integer part lost for large x",'C30'),
(B,"if p2 <=? x then log2_down","if p2 <? x then log2_down","x = 2^(p+1) not scaled",'C30'),
(B,"let z := Z.shiftr (to_uint64 (z * z)) precision in","let z := Z.shiftr (to_uint32 (z * z)) precision in","square kept in 32 bits",'C30'),
(B,"Ret (z, y, Z.shiftr b 1)","Ret (z, y, b)","bit weight never halved",'C30'),
(B,"(x, y, b) (zrange precision)","(x, y, b) (zrange (precision - 1))","one bit too few (error grows to at most 5)",'C30'),
(B,"let* xx := (if 0 <? xm then Ret xm else chk_int32 (- xm)) in","let* xx := Ret xm in","no absolute value (squares make it equal except rounding)",'C31'),
(B,"chk_int32 (p - stdlog2)","chk_int32 (p + stdlog2)","sign of log2(std)",'C31'),
(B,"let* d := chk_int32 (x - mean) in","let* d := chk_int32 (x + mean) in","distance from -mean",'C31'),
(B,"let* m := chk_int32 (class_idx * bm_n_features model) in","let* m := chk_int32 (class_idx * bm_n_classes model) in","wrong stride in the table",'C31'),
(B,"if best <? p then Ret (class_idx, p)","if best <=? p then Ret (class_idx, p)","last instead of first maximum",'C31'),
(B,"(0, p0) (zrange (bm_n_classes model - 1))","(0, p0) (zrange (bm_n_classes model - 2))","last class never considered",'C31'),
(B,"let class_idx := k + 1 in","let class_idx := k in","class numbers shifted by one",'C31'),
(B,"chk_int32 (class_p + plog)","chk_int32 plog","only the last feature counts",'C31'),
(B,"Ret (mk_summary m s l)) (concat model)","Ret (mk_summary m l s)) (concat model)","std and log2 std swapped in the table",'C56'),
(B,"Definition logpdf_c : Z := -86884.","Definition logpdf_c : Z := 86884.","sign of constant",'C31'),
]
