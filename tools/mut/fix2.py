M=[
('Model/TreesRun.v','if is_finite x then Ret x else Err CompileError','if is_finite x then Ret (Bopp x) else Err CompileError','c_float_literal: sign lost','C75,C76,C78'),
('Model/Harness.v','map (fmt_fixed 8) row','map (fmt_fixed 6) row','serialize_row: six decimals instead of eight','C72'),
]
