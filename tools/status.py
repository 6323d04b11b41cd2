STATUS = {
 'C06': ('partial', 'False of the code: encode_child accepts +32768, which the int16_t field turns into leaf 32767 (C06_child_fits_refuted). Proved for every other accepted reference.'),
 'C10': ('partial', 'predict_proba: proved bit-identical. predict: false (C10_predict_agree_soft_refuted): the loadable program divides by the number of trees before taking the maximum, and rounding creates ties. Proved: equal, or an earlier class with the same float probability; always equal for a power-of-two number of trees.'),
 'C11': ('partial', 'False of the code (C11_same_branch_refuted): `<` with truncation instead of `<=`. Exact characterisation proved.'),
 'C14': ('partial', 'False of the code: error codes and "no class" are turned into class numbers. Proved for hard voting with at most 30 classes and rows of the right length.'),
 'C15': ('partial', 'False of the code for classifiers (C15_size_refuted). Exact difference proved for hard and soft voting, equality for regressors; node and leaf counts are always right.'),
 'C16': ('partial', 'False of the code: a single-leaf tree raises AttributeError; thresholds are rounded to six decimals. Round trip proved otherwise. C16_text_partial, C16_text_regressor_partial: for hard voting and regressors, including the text (str() of a float reads back); C16_text_unique. The text of the byte arrays written for soft voting is not modelled.'),
 'C17': ('partial', 'False of the code for far points (C17_distance_refuted). Proved: correct exactly when the squared distance is below 2^30.'),
 'C18': ('partial', 'False of the code from 2^30 on (C18_isqrt_refuted: signed overflow). Proved for every x below 2^30; negative x gives 0.'),
 'C20': ('partial', 'False for exact distances (C20_predict_exact_nearest_refuted: distances are truncated to integers before sorting). Proved with nearness = integer part of the distance, when squared distances are below 2^30.'),
 'C53': ('partial', 'Sound for every length; complete only for lengths up to 32767 (int16_t parameters, C53_check_complete_refuted).'),
 'C22': ('partial', 'False of the code for arrays of 2^31 bytes or more: the int offset overflows although initialisation accepts them (C22_addressing_refuted). Proved for every smaller 2-D array.'),
 'C23': ('partial', 'False for shift 0 on a non-empty array: memcpy with equal pointers is undefined (C23_shift_zero_refuted). Proved for every other shift.'),
 'C24': ('partial', 'False when the element sizes differ: they are not compared (C24_copy_value_size_refuted). Proved for equal element sizes.'),
 'C25': ('partial', 'False for an empty chunk (shift by 0, C25_empty_chunk_refuted). Proved for chunks of 1..rows rows, any number of them.'),
 'C27': ('partial', 'False of the code (three refutations: columns array too small gives +1, blank line gives 0, cut line accepted). Full characterisation proved when the columns array is large enough.'),
 'C52': ('partial', 'False when length + location exceeds int (C52_vector_set_refuted). Proved otherwise, for source and destination in different buffers.'),
 'C54': ('partial', 'False when a value prints as 20 or more characters: part of the row is written (C54_write_data_refuted). Proved otherwise.'),
 'C55': ('partial', 'False when the header does not fit the buffer (C55_header_refuted). Proved when it fits.'),
 'C30': ('partial', 'False of the code: precisions 27..30 wrap for small x, precision 31 passes the range check and never terminates. Proved for 1..26 (27..30 modulo 2^32).'),
 'C31': ('partial', 'False of the code outside a range: values 182 standard deviations from a mean overflow or wrap, more than 10 classes write outside the local array, standard deviations below 2^-16 divide by zero, the input length is not checked. Proved whenever everything fits.'),
 'C33': ('partial', 'False for networks with exactly two outputs: the probabilities are exchanged (C33_two_outputs_refuted, C33_two_outputs_swapped). Proved for every other number of outputs; predict and regress proved for all.'),
 'C34': ('partial', 'False of the code: the inline generator raises ValueError for every network (C34_inline_generation_refuted). Proved: the code in the template, instantiated with the same layers, computes the same outputs and class.'),
 'C35': ('partial', 'False of eml_argmax_fixed32, which answers -1 whenever element 0 is a maximum (C35_argmax_fixed32_refuted), and of eml_net_argmax when nothing exceeds -infinity. Proved otherwise.'),
 'C37': ('partial', 'False of the code: an Activation layer after a Dense layer with its own activation replaces that activation (C37_convert_refuted). Proved whenever every activation layer follows a linear layer.'),
 'C57': ('partial', 'False of the code: the number of columns is not checked, a five-column matrix is read out of bounds (C57_columns_refuted). Proved for six columns.'),
 'C41': ('partial', 'Proved for filters that are one run of nonzero coefficients; for every other matrix neither Python nor C returns a result (C41_only_bands_refuted, C41_empty_filter_refuted), so the property is false there.'),
 'C42': ('partial', 'Proved for fmax up to half the sampling rate (exact arithmetic), and in any arithmetic given ordered bins inside the spectrum. False above (C42_above_nyquist_refuted) and for more filters than samples (C42_many_filters_refuted).'),
 'C63': ('partial', 'False in general (C63_near_bin_refuted). C63_triangles_partial characterises exactly when it holds; C63_close_partial bounds the difference otherwise.'),
 'C64': ('partial', 'False (C64_imaginary_refuted): only real parts are used. The output is characterised exactly (C64_real_parts_partial).'),
 'C43': ('partial', 'Distance and C decision proved (the decision for all float32 inputs). Python predict() differs from the C decision exactly when the distance is on the boundary (C43_python_decision_refuted).'),
 'C58': ('partial', 'False of the C function: its error code equals the answer for an outlier (C58_wrong_length_refuted). The Python wrapper raises AssertionError at the first such row (C58_python_wrong_length).'),
 'C59': ('partial', 'False of the code for near ties: responsibilities are rounded to six decimals before the maximum is taken (C59_predict_refuted). Proved: greatest up to one millionth.'),
 'C60': ('partial', 'False of the code: values_length is not used; shorter rows are read out of bounds (C60_values_length_refuted). The Python wrapper does check.'),
 'C39': ('partial', 'The DFT, bounds and refusals are proved for every n below 2^32. From 2^32 on every call shifts 1U by 32 or more: undefined behaviour (C39_long_refuted).'),
 'C46': ('partial', 'False of the code for 64-bit types (C46_int64_refuted: the clip limit rounds up to 2^63) and unsigned types (C46_unsigned_refuted). Proved for out_max up to 2^53 (round trip: up to 2^31).'),
 'C66': ('partial', 'False of the code: the largest value may come out one less (C66_largest_refuted), and all-zero data divides by zero (C66_zeros_refuted). Proved within one step.'),
 'C47': ('partial', 'Efficiency proved. find_pareto_front with performance_metric mean_test_score overwrites the column with its negation before comparing with min_performance (C47_score_column_refuted); proved for other columns.'),
 'C51': ('partial', 'False of the code: Unsupported and Uninitialized are exchanged (C51_swapped_refuted). Proved for all other codes.'),
 'C48': ('partial', 'False of the code: a trailing newline is accepted (even after a keyword) and _Packed is refused. The accepted set is characterised exactly (C48_accepted).'),
 'C67': ('partial', 'False for dtype float: NaN and infinity are written as nanf and inff (C67_nan_refuted). Proved for integer types.'),
 'C68': ('partial', 'False for structs: struct_declare drops the modifiers (C68_struct_modifiers_refuted). Everything else proved.'),
 'C69': ('partial', 'False of the code: values that do not fit 32 bits are written all the same (C69_range_refuted). Proved for values that fit, and the width check.'),
 'C72': ('partial', 'False of the code: values are sent with eight decimals (C72_small_refuted). Proved: float32 values with at most eight decimals arrive exactly, all others within 6e-9 + |v|/2^24.'),
 'C76': ('partial', "C76_leaf_values_refuted: inline code writes leaves with six decimals, so a leaf of 1e-7 becomes 0 (loadable keeps it). C76_inline_leaves_partial: every inline leaf is the value through six decimals, within 5.00001e-7 + |x|/2^24, and the answer is the float32 mean of those. Loadable leaves are the nearest float32: C13."),
 'C79': ('partial', "False: C79_float_refuted (x = 0.5, threshold 0.5 goes right) and C79_int16_refuted (threshold 0.5 becomes 0, so x = 0 goes right). Where the branches do agree: C77 and C78, C11."),
 'C81': ('partial', "False: fractions are cut off, so different training rows become the same item (C81_fractions_refuted). Proved: the integer parts are stored, integers exactly (C81_integers), and what does not fit raises."),
 'C82': ('partial', "False: a short row gives -1 and a label above 9 gives -5 (C82_raises_refuted); a long row is written past the end of an array (C82_long_row_refuted). Proved: every result is a label of the training data, -1 or -5."),
 'C83': ('partial', "False: all models of a kind share one executable, so converting a second one changes the first (C83_own_code_refuted), even if converting it raises (C83_failed_conversion_refuted); predict runs the program built last (C83_taken_over). Proved when no later model of the same kind is converted."),
 'C85': ('partial', "False for every other label set: the codes are returned (C85_labels_refuted). Proved for labels within 0..n-1 (trees); for kNN see C82_range_partial."),
 'C93': ('partial', "False: nothing raises. C93_classes_partial: predict returns -1 for every row; C93_raises_refuted: a regressor returns nan, predict_proba zeros."),
 'C94': ('partial', "False: C94_two_outputs_refuted (outputs 1/4, 3/4 come out as 3/4, 1/4). C94_two_outputs_partial: for all such networks the result is 1 - y0 and y0 within the bounds."),
 'C95': ('partial', "False for every network (C95_fixedpoint_refuted): NotImplementedError, or the generated test program does not compile."),
 'C98': ('partial', "False: the leaf is counted too, so no constant fits (C98_proportional_refuted). C98_estimate_partial: the estimate is the mean number of evaluations plus the number of trees, for all models and datasets."),
 'C101': ('partial', "False: C101_long_name_refuted (with the default width a name of 71 letters is broken in two). C101_window_partial: names that leave 24 characters of the line, windows of less than 10^10 values under 10^12."),
 'C102': ('partial', "False: C102_odd_samplerate_refuted (the declared fmax is rounded down for every odd samplerate). C102_mel_partial: even samplerate or given fmax, names that leave 24 characters of the line, numbers under 10^12."),
 'C105': ('partial', "False: C105_false_refuted (type=bool: the text False is true). C105_options_partial: exactly which arguments turn the options on."),
 'C109': ('partial', "False: C109_underflow_refuted (the distances are first calculated in Python under numpy.seterr(all='raise') and thrown away). C109_ordinary_numbers_partial: nothing is raised for numbers that are zero or between 2^-140 and 2^126."),
 'C110': ('partial', "False of the default: C110_default_refuted. C110_method, C110_other_method: exactly 'inline' is accepted, everything else is a ValueError."),
 'C113': ('partial', "False for one class (C113_one_class_refuted: -3 for every row) and above ten (C113_many_classes_refuted: an array is written past its end). C113_predict_partial, C113_leader_partial: 2 to 10 classes, any number of features and rows, numbers that fit 16.16 fixed point."),
 'C114': ('partial', "False: the priors are not read (C114_priors_ignored, C114_posterior_refuted). C114_equal_priors_partial: proved when they are equal."),
 'C115': ('partial', "False of short rows: C115_short_row_refuted. The rest is proved: C115_inline, C115_other, C115_default, C115_zero_variance."),
 'C118': ('partial', "False: C118_wide_refuted (Cholesky factors below 5e-7 are written as 0.000000, all components look alike and 0 is returned). C118_predict_partial: never a component less probable than another by more than twice the error; C118_leader_partial: a component that leads by more is returned."),
 'C120': ('partial', "False of explicit kinds for trees: C120_kind_refuted (the class name, not kind, decides between classifier and regressor). C120_kind_partial: proved when the names agree on that, and for all other models. C120_unknown, C120_wrong_family: all estimators and options."),
 'C122': ('partial', "False of MLPRegressor: C122_default_refuted (return_type is 'classifier' unless given). C122_return_type_partial: with return_type='regressor'; tree regressors: C121_tree_regressor."),
 'C123': ('partial', "False: C123_mixture_method_refuted, C123_return_type_refuted, C123_dtype_refuted, C123_keywords_refuted (silently ignored, for every estimator of those kinds). C123_method_partial, C123_keywords_partial: where they are refused."),
 'C124': ('partial', "False: C124_predict_proba_refuted, C124_score_samples_refuted (AttributeError or NotImplementedError for the families named, on every input). C124_tree_proba_partial, C124_mlp_proba_partial, C124_mixture_partial, C124_envelope_partial: the others, with the values."),
 'C128': ('partial', "False of indices outside: C128_outside_refuted (memory outside the arrays is read). C128_value_partial: the sums, when all indices are inside; C128_only_inside: the call returns only then; C128_lengths: different numbers of starts and stops are refused."),
 'C132': ('partial', "False of updates: C132_stale_refuted (a header the new version no longer has stays, in every case). C132_refuses: without update nothing is touched."),
 'C133': ('partial', "False of the same command: C133_same_command_refuted (every first installation has a point of interruption after which it is refused although no file is there). C133_rerun_partial: repeated with update it completes after any interruption."),
 'C134': ('partial', "False: C134_nothing_refuted (returns although the include directory has nothing or does not exist), C134_pattern_refuted (a path with [ is taken as a pattern). C134_header_partial: the headers of an existing directory without such characters are installed."),
 'C135': ('partial', "False of every layer: C135_not_computed_refuted (EmlOk, and the output buffer is unchanged). C135_other_partial: other activations are refused."),
 'C136': ('partial', "False of values with spaces (C136_space_refuted), arrays (C136_array_refuted: no equals sign) and names of events with a percent sign (C136_percent_refuted: used as the format). C136_log_partial: all sequences of entries of words, integers, booleans and finite numbers."),
 'C140': ('partial', "False: C140_argmax_refuted (with leaf_bits=2 a share of 24 % is stored as 0; if all shares are, -1 becomes class 1). C140_predict_partial, C140_float_partial: no class has a mean proportion larger by more than twice the error."),
 'C145': ('partial', 'False of the code for Bayes models (C145_bayes_refuted): save of bayes.Wrapper takes (file, name), so save("m") overwrites a file m. Proved for the other wrappers.'),
 'C146': ('partial', 'False of the code (C146_two_models_refuted, C146_library_refuted): a nearest neighbours model m and a model m_data both define m_data, and the name eml_trees is accepted. Proved when neither name is a prefix of the other.'),
}
