M=[
('Model/Lut.v','(PyInt (zlen coeffs)) in\n','(PyInt n_bands) in\n','sparse_filterbank_serialize: _length is the number of bands','C100,C102'),
('Model/Lut.v','(zlen ends) (txt "int") (map PyInt ends)','(zlen ends) (txt "int") (map PyInt starts)','sparse_filterbank_serialize: ends are the starts','C100,C102'),
('Model/Lut.v','declare_opt (name ++ txt "_fmin") fmin','declare_opt (name ++ txt "_fmin") fmax','sparse_filterbank_serialize: fmin is fmax','C100,C102'),
('Model/Lut.v','do* py_assert (zlen starts =? zlen ends);','','sparse_filterbank_serialize: lengths not compared','C100'),
('Model/Lut.v','(PyInt length_) in\n  let* w','(PyInt (length_ + 1)) in\n  let* w','window_function: length constant one too large','C101'),
('Model/Lut.v','Ret (join_with [10] w).\n\n(** tools/mel','Ret (join_with [] w).\n\n(** tools/mel','window_function: wrapped lines joined without newline','C101,C103'),
('Model/Lut.v','cur_len + zlen c <=? width then','cur_len + zlen c <=? width + 1 then','fill_line: a line may be one character longer','C103'),
('Model/Lut.v','if width <? zlen c then\n','if width <=? zlen c then\n','wrap_chunks: words as long as the line broken','C103'),
('Model/Lut.v','if width <=? 0 then Err ValueError_','if width <? 0 then Err ValueError_','textwrap_wrap: width zero accepted','C103'),
('Model/Lut.v','let line := drop_last_blank line in','let line := removelast line in','wrap_chunks: last chunk dropped even if it is a word','C101,C102,C103'),
('Model/Lut.v','if blank c0 && negb','if negb (blank c0) && negb','wrap_chunks: words dropped at the beginning of a line','C101,C102,C103'),
('Model/Lut.v','(f_of_Z samplerate) (f_of_Z 2)','(f_of_Z samplerate) (f_of_Z 4)','mel_filterbank: default fmax is a quarter','C102'),
('Model/Lut.v','(Some (PyInt fft)) (Some (PyInt samplerate))','(Some (PyInt samplerate)) (Some (PyInt fft))','mel_filterbank: fft and samplerate swapped','C102'),
('Model/Lut.v','[window_type; fmt_int length_; txt "lut"]','[fmt_int length_; window_type; txt "lut"]','window_name: name begins with the number','C101'),
('Model/Lut.v','using eml-window-function" ++ [10; 10]','using eml-window-function" ++ []','window_file: no newline after the comment','C101'),
('Model/Lut.v','bool_option true','bool_option false','normalize_option: default off','C105'),
('Model/Audio.v','(zrange (stop - start + 1))','(zrange (stop - start))','eml_sparse_filterbank: last coefficient left out','C104'),
('Model/Cgen.v','fmt_fixed 6 x ++ txt "f"','fmt_fixed 5 x ++ txt "f"','constant: five decimals','C100,C101,C102'),
]
