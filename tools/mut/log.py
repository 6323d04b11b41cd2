M=[
('Model/Log.v','txt " %s=%d"','txt " %s=%s"','log_field: %s for an integer','C136'),
('Model/Log.v','txt " %s=%d") [AStr key','txt "%s=%d") [AStr key','log_field: no space before an integer key','C136'),
('Model/Log.v','txt " %s=%.4f"','txt " %s=%.3f"','log_field: three digits','C136'),
('Model/Log.v','[AStr key; AStr str]','[AStr str; AStr key]','log_field: key and value exchanged','C136'),
('Model/Log.v','if boolean then txt "true" else txt "false"','if boolean then txt "false" else txt "true"','log_field: booleans exchanged','C136'),
('Model/Log.v','let* e := printf [10] [] in','let* e := printf [32] [] in','log_entry: no newline','C136'),
('Model/Log.v','Ret (b ++ concat fs ++ e)','Ret (b ++ concat (rev fs) ++ e)','log_entry: fields in reverse','C136'),
('Model/Log.v','Ret (b ++ concat fs ++ e)','Ret (b ++ fold_right (fun f acc => f) [] fs ++ e)','log_entry: only the first field','C136'),
('Model/Log.v','let* b := printf event [] in','let* b := printf (txt "%s") [AStr event] in','log_entry: the event is an argument (the fixed program)','C136'),
('Model/Log.v','  else Ret [].','  else Ret [10].','log_entry: a newline although disabled','C136'),
('Model/Log.v','printf (txt " %s") [AStr key] in','printf (txt " %s=") [AStr key] in','log_field: arrays with an equals sign (the fixed program)','C136'),
('Model/Log.v','Ret (fmt_int z ++ t)','Ret (dec_digits (Z.abs z) ++ t)','printf: the sign is lost','C136'),
('Model/Log.v','  Ret (concat ts).','  Ret (concat (rev ts)).','log_entries: in reverse','C136'),
('Model/Net.v','let* out := foldM (fun out o => Ret out) out (zrange out_length) in','let* out := foldM (fun out o => let* b := zget biases o in zset out o b) out (zrange out_length) in','eml_net_forward_q16: the biases are written','C135'),
('Model/Net.v','  | _ => Ret (EmlUnsupported, out)\n  end.','  | _ => Ret (EmlOk, out)\n  end.','eml_net_forward_q16: unknown activations are accepted','C135'),
]
