M=[
('Model/Benchmark.v','let G := 48271 in','let G := 48371 in','eml_lcg_parkmiller: a digit of the multiplier wrong','C96'),
('Model/Benchmark.v','to_uint32 (a + to_uint32 (N - b))','to_uint32 (a - b)','eml_lcg_parkmiller: modulus not added for negative differences','C96'),
('Model/Benchmark.v','let div := state / (N / G) in','let div := state / (N mod G) in','eml_lcg_parkmiller: quotient and remainder swapped','C96'),
('Model/Benchmark.v','(values, 1) (zrange features)','(values, 2) (zrange features)','eml_benchmark_fill: another seed','C96'),
('Model/Benchmark.v','(zrange features) in\n  Ret (EmlOk, values)','(zrange (features - 1)) in\n  Ret (EmlOk, values)','eml_benchmark_fill: last feature left out','C96'),
('Model/Size.v','Ret (text_ + data + rodata, data + bss)','Ret (text_ + rodata, data + bss)','run_binutils_size: initialised data not counted as flash','C97'),
('Model/Size.v','Ret (text_ + data + rodata, data + bss)','Ret (text_ + data + rodata, bss)','run_binutils_size: initialised data not counted as RAM','C97'),
('Model/Size.v','[txt ".rodata"; txt ".data"; txt ".bss"] out in','[txt ".rodata"; txt ".data"] out in','parse_binutils_size_a_output: no default for .bss','C97'),
('Model/Size.v','is_word c || (c =? 46)','is_word c','field_char: points not part of section names','C97'),
('Model/Size.v','finditer (pred n) s','finditer n s','finditer: one character too many passed over','C97'),
('Model/Size.v','dict_set out (lower field) v','dict_set out field v','parse_binutils_size_a_output: names not made lower case','C97'),
('Model/TreesCost.v','if l =? -1 then Ret [i]','if l =? -1 then Ret []','decision_path: leaf not counted','C98'),
('Model/TreesCost.v','Ret (total + m)%R','Ret m','compute_cost_estimate: only the last tree counts','C98'),
('Model/TreesCost.v','(if go row f th then l else r)','(if go row f th then l else l)','decision_path: always to the left','C98'),
('Model/TreesCost.v','/ IZR (zlen l))%R','/ IZR (zlen l - 1))%R','mean_of: one row too few in the mean','C98'),
]
