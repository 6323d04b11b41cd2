M=[
('Model/TreesCsv.v','join_with [13; 10] (map','join_with [10] (map','save_csv_text: lines separated by a line feed only','C16'),
('Model/TreesCsv.v','float_str value ++ txt "," ++ fmt_int l ++ txt "," ++ fmt_int r','float_str value ++ txt "," ++ fmt_int r ++ txt "," ++ fmt_int l','csv_line: left and right exchanged','C16'),
('Model/TreesCsv.v','txt "lb," ++ fmt_int n','txt "l," ++ fmt_int n','csv_line: the line of leaf bits looks like a leaf','C16'),
('Model/TreesCsv.v','txt "," ++ float_str value ++ txt ","','txt "," ++ float_str value ++ txt ""','csv_line: a comma is missing','C16'),
('Model/TreesCsv.v','txt "r," ++ fmt_int r','txt "r," ++ fmt_int (r + 1)','csv_line: roots counted from one','C16'),
('Model/TreesCsv.v','txt "f," ++ fmt_int n','txt "c," ++ fmt_int n','csv_line: features written as classes','C16'),
('Model/TreesCsv.v','txt "l," ++ array_str bytes','txt "l," ++ array_str (map (fun b => b - 1) bytes)','csv_line: bytes of a leaf less one','C16'),
('Model/TreesWrapper.v','map RLeaf leaves ++ map RRoot roots ++ ns','map RRoot roots ++ map RLeaf leaves ++ ns','save_csv: roots before the leaves','C16'),
('Model/TreesWrapper.v','Definition f64_1e6 : f64 := f_of_Z 1000000.','Definition f64_1e6 : f64 := f_of_Z 1000.','np_round6: three decimals','C16'),
('Model/TreesWrapper.v','Ret (RNode (d_feature n) (np_round6 x) l r)','Ret (RNode (d_feature n) x l r)','serialize_node: threshold not rounded','C16'),
]
