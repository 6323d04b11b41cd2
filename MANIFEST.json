{
 "claims": [
  {
   "property": "C01",
   "status": "proved",
   "theorems": [
    "C01_flatten_preserves_decisions"
   ],
   "note": ""
  },
  {
   "property": "C02",
   "status": "proved",
   "theorems": [
    "C02_forest_preserves_trees"
   ],
   "note": ""
  },
  {
   "property": "C03",
   "status": "proved",
   "theorems": [
    "C03_deduplication"
   ],
   "note": ""
  },
  {
   "property": "C04",
   "status": "proved",
   "theorems": [
    "C04_conversion_total_one_tree",
    "C04_conversion_total",
    "C04_classifier_accepted",
    "C04_soft_classifier_accepted",
    "C04_regressor_accepted"
   ],
   "note": ""
  },
  {
   "property": "C05",
   "status": "proved",
   "theorems": [
    "C05_walk_safe_and_correct"
   ],
   "note": ""
  },
  {
   "property": "C06",
   "status": "partial",
   "theorems": [
    "C06_child_fits_refuted",
    "C06_child_fits_partial"
   ],
   "note": "False of the code: encode_child accepts +32768, which the int16_t field turns into leaf 32767 (C06_child_fits_refuted). Proved for every other accepted reference."
  },
  {
   "property": "C07",
   "status": "proved",
   "theorems": [
    "C07_predict_majority",
    "C07_save_total"
   ],
   "note": ""
  },
  {
   "property": "C08",
   "status": "proved",
   "theorems": [
    "C08_proba_is_vote_fraction",
    "C08_error_codes",
    "C08_predict_error_codes"
   ],
   "note": ""
  },
  {
   "property": "C09",
   "status": "proved",
   "theorems": [
    "C09_inline_loadable_agree_hard"
   ],
   "note": ""
  },
  {
   "property": "C10",
   "status": "partial",
   "theorems": [
    "C10_inline_loadable_proba_agree_soft",
    "C10_predict_agree_soft_partial",
    "C10_predict_agree_soft_refuted"
   ],
   "note": "predict_proba: proved bit-identical. predict: false (C10_predict_agree_soft_refuted): the loadable program divides by the number of trees before taking the maximum, and rounding creates ties. Proved: equal, or an earlier class with the same float probability; always equal for a power-of-two number of trees."
  },
  {
   "property": "C11",
   "status": "partial",
   "theorems": [
    "C11_same_branch_partial",
    "C11_same_branch_refuted",
    "C11_same_branch_inline",
    "C11_same_branch_everywhere_iff"
   ],
   "note": "False of the code (C11_same_branch_refuted): `<` with truncation instead of `<=`. Exact characterisation proved."
  },
  {
   "property": "C12",
   "status": "proved",
   "theorems": [
    "C12_quantisation"
   ],
   "note": ""
  },
  {
   "property": "C13",
   "status": "proved",
   "theorems": [
    "C13_regression",
    "C13_leaf_is_nearest_float32",
    "C13_unsupported"
   ],
   "note": ""
  },
  {
   "property": "C14",
   "status": "partial",
   "theorems": [
    "C14_errors_become_classes_refuted",
    "C14_no_class_becomes_class_1",
    "C14_errors_partial"
   ],
   "note": "False of the code: error codes and \"no class\" are turned into class numbers. Proved for hard voting with at most 30 classes and rows of the right length."
  },
  {
   "property": "C15",
   "status": "partial",
   "theorems": [
    "C15_size_regressor",
    "C15_size_hard_partial",
    "C15_size_soft_partial",
    "C15_size_refuted"
   ],
   "note": "False of the code for classifiers (C15_size_refuted). Exact difference proved for hard and soft voting, equality for regressors; node and leaf counts are always right."
  },
  {
   "property": "C16",
   "status": "partial",
   "theorems": [
    "C16_csv_roundtrip_partial",
    "C16_threshold_six_decimals",
    "C16_csv_single_leaf_refuted",
    "C16_text_partial",
    "C16_text_regressor_partial",
    "C16_text_unique",
    "C16_threshold_close"
   ],
   "note": "False of the code: a single-leaf tree raises AttributeError; thresholds are rounded to six decimals. Round trip proved otherwise. C16_text_partial, C16_text_regressor_partial: for hard voting and regressors, including the text (str() of a float reads back); C16_text_unique. The text of the byte arrays written for soft voting is not modelled."
  },
  {
   "property": "C17",
   "status": "partial",
   "theorems": [
    "C17_distance_iff",
    "C17_distance_refuted"
   ],
   "note": "False of the code for far points (C17_distance_refuted). Proved: correct exactly when the squared distance is below 2^30."
  },
  {
   "property": "C18",
   "status": "partial",
   "theorems": [
    "C18_isqrt_partial",
    "C18_isqrt_refuted",
    "C18_isqrt_negative"
   ],
   "note": "False of the code from 2^30 on (C18_isqrt_refuted: signed overflow). Proved for every x below 2^30; negative x gives 0."
  },
  {
   "property": "C19",
   "status": "proved",
   "theorems": [
    "C19_sort_correct"
   ],
   "note": ""
  },
  {
   "property": "C20",
   "status": "partial",
   "theorems": [
    "C20_predict_votes_of_nearest_partial",
    "C20_predict_k_zero",
    "C20_predict_wrong_lengths",
    "C20_predict_k_too_big",
    "C20_predict_exact_nearest_refuted"
   ],
   "note": "False for exact distances (C20_predict_exact_nearest_refuted: distances are truncated to integers before sorting). Proved with nearness = integer part of the distance, when squared distances are below 2^30."
  },
  {
   "property": "C21",
   "status": "proved",
   "theorems": [
    "C21_add_item_history",
    "C21_add_item_result",
    "C21_empty_model"
   ],
   "note": ""
  },
  {
   "property": "C22",
   "status": "partial",
   "theorems": [
    "C22_addressing_partial",
    "C22_addressing_refuted",
    "C22_storage_size_refuted"
   ],
   "note": "False of the code for arrays of 2^31 bytes or more: the int offset overflows although initialisation accepts them (C22_addressing_refuted). Proved for every smaller 2-D array."
  },
  {
   "property": "C23",
   "status": "partial",
   "theorems": [
    "C23_shift_partial",
    "C23_shift_rejected",
    "C23_shift_zero_refuted"
   ],
   "note": "False for shift 0 on a non-empty array: memcpy with equal pointers is undefined (C23_shift_zero_refuted). Proved for every other shift."
  },
  {
   "property": "C24",
   "status": "partial",
   "theorems": [
    "C24_copy_partial",
    "C24_copy_value_size_refuted"
   ],
   "note": "False when the element sizes differ: they are not compared (C24_copy_value_size_refuted). Proved for equal element sizes."
  },
  {
   "property": "C25",
   "status": "partial",
   "theorems": [
    "C25_sliding_window_partial",
    "C25_empty_chunk_refuted"
   ],
   "note": "False for an empty chunk (shift by 0, C25_empty_chunk_refuted). Proved for chunks of 1..rows rows, any number of them."
  },
  {
   "property": "C26",
   "status": "proved",
   "theorems": [
    "C26_round_trip"
   ],
   "note": ""
  },
  {
   "property": "C27",
   "status": "partial",
   "theorems": [
    "C27_read_result_partial",
    "C27_small_columns_refuted",
    "C27_blank_line_refuted",
    "C27_cut_line_refuted"
   ],
   "note": "False of the code (three refutations: columns array too small gives +1, blank line gives 0, cut line accepted). Full characterisation proved when the columns array is large enough."
  },
  {
   "property": "C28",
   "status": "proved",
   "theorems": [
    "C28_q16_div",
    "C28_nearest_unique",
    "C28_q16_div_wraps",
    "C28_q16_div_by_zero"
   ],
   "note": ""
  },
  {
   "property": "C29",
   "status": "proved",
   "theorems": [
    "C29_fromint_toint",
    "C29_q16_mul",
    "C29_from_float_exact",
    "C29_from_float_error"
   ],
   "note": ""
  },
  {
   "property": "C30",
   "status": "partial",
   "theorems": [
    "C30_log2_partial",
    "C30_log2_wraps_refuted",
    "C30_precision_31_refuted",
    "C30_range_check"
   ],
   "note": "False of the code: precisions 27..30 wrap for small x, precision 31 passes the range check and never terminates. Proved for 1..26 (27..30 modulo 2^32)."
  },
  {
   "property": "C31",
   "status": "partial",
   "theorems": [
    "C31_predict_partial",
    "C31_nearer_partial",
    "C31_nearer_refuted",
    "C31_far_value_refuted",
    "C31_large_value_refuted",
    "C31_many_classes_refuted",
    "C31_small_std_refuted",
    "C31_length_refuted",
    "C31_too_few_classes"
   ],
   "note": "False of the code outside a range: values 182 standard deviations from a mean overflow or wrap, more than 10 classes write outside the local array, standard deviations below 2^-16 divide by zero, the input length is not checked. Proved whenever everything fits."
  },
  {
   "property": "C32",
   "status": "proved",
   "theorems": [
    "C32_infer",
    "C32_no_history",
    "C32_wrong_length",
    "C32_few_layers",
    "C32_generated"
   ],
   "note": ""
  },
  {
   "property": "C33",
   "status": "partial",
   "theorems": [
    "C33_two_outputs_refuted",
    "C33_two_outputs_swapped",
    "C33_proba_partial",
    "C33_predict",
    "C33_predict_proba_consistent",
    "C33_regress",
    "C33_regress1"
   ],
   "note": "False for networks with exactly two outputs: the probabilities are exchanged (C33_two_outputs_refuted, C33_two_outputs_swapped). Proved for every other number of outputs; predict and regress proved for all."
  },
  {
   "property": "C34",
   "status": "partial",
   "theorems": [
    "C34_inline_generation_refuted",
    "C34_template_agrees_partial"
   ],
   "note": "False of the code: the inline generator raises ValueError for every network (C34_inline_generation_refuted). Proved: the code in the template, instantiated with the same layers, computes the same outputs and class."
  },
  {
   "property": "C35",
   "status": "partial",
   "theorems": [
    "C35_net_argmax_partial",
    "C35_net_argmax_finite",
    "C35_python_argmax",
    "C35_argmax_fixed32_refuted",
    "C35_argmax_fixed32_partial"
   ],
   "note": "False of eml_argmax_fixed32, which answers -1 whenever element 0 is a maximum (C35_argmax_fixed32_refuted), and of eml_net_argmax when nothing exceeds -infinity. Proved otherwise."
  },
  {
   "property": "C36",
   "status": "proved",
   "theorems": [
    "C36_softmax",
    "C36_softmax_probabilities",
    "C36_logistic",
    "C36_relu",
    "C36_tanh"
   ],
   "note": ""
  },
  {
   "property": "C37",
   "status": "partial",
   "theorems": [
    "C37_convert_partial",
    "C37_convert_infer_partial",
    "C37_convert_refuted",
    "C37_unsupported_layer",
    "C37_unsupported_activation"
   ],
   "note": "False of the code: an Activation layer after a Dense layer with its own activation replaces that activation (C37_convert_refuted). Proved whenever every activation layer follows a linear layer."
  },
  {
   "property": "C38",
   "status": "proved",
   "theorems": [
    "C38_difference_equation",
    "C38_unique",
    "C38_blocks",
    "C38_two_filters",
    "C38_frame",
    "C38_check"
   ],
   "note": ""
  },
  {
   "property": "C39",
   "status": "partial",
   "theorems": [
    "C39_dft_partial",
    "C39_in_bounds_partial",
    "C39_refuses_partial",
    "C39_fill",
    "C39_long_refuted"
   ],
   "note": "The DFT, bounds and refusals are proved for every n below 2^32. From 2^32 on every call shifts 1U by 32 or more: undefined behaviour (C39_long_refuted)."
  },
  {
   "property": "C40",
   "status": "proved",
   "theorems": [
    "C40_reverse",
    "C40_involution",
    "C40_swap_loop"
   ],
   "note": ""
  },
  {
   "property": "C41",
   "status": "partial",
   "theorems": [
    "C41_python_dense_partial",
    "C41_c_dense_partial",
    "C41_only_bands_refuted",
    "C41_empty_filter_refuted",
    "C41_same"
   ],
   "note": "Proved for filters that are one run of nonzero coefficients; for every other matrix neither Python nor C returns a result (C41_only_bands_refuted, C41_empty_filter_refuted), so the property is false there."
  },
  {
   "property": "C42",
   "status": "partial",
   "theorems": [
    "C42_in_bounds_partial",
    "C42_nyquist_partial",
    "C42_above_nyquist_refuted",
    "C42_many_filters_refuted"
   ],
   "note": "Proved for fmax up to half the sampling rate (exact arithmetic), and in any arithmetic given ordered bins inside the spectrum. False above (C42_above_nyquist_refuted) and for more filters than samples (C42_many_filters_refuted)."
  },
  {
   "property": "C43",
   "status": "partial",
   "theorems": [
    "C43_distance",
    "C43_python_distance",
    "C43_outlier_float",
    "C43_outlier_exact",
    "C43_python_decision_partial",
    "C43_python_decision_refuted"
   ],
   "note": "Distance and C decision proved (the decision for all float32 inputs). Python predict() differs from the C decision exactly when the distance is on the boundary (C43_python_decision_refuted)."
  },
  {
   "property": "C44",
   "status": "proved",
   "theorems": [
    "C44_log_proba",
    "C44_score",
    "C44_predict_proba",
    "C44_logsumexp",
    "C44_refused"
   ],
   "note": ""
  },
  {
   "property": "C45",
   "status": "proved",
   "theorems": [
    "C45_forward",
    "C45_forward_plain",
    "C45_bad_cast_iff",
    "C45_mismatch",
    "C45_accuracy",
    "C45_monotone",
    "C45_round_trip"
   ],
   "note": ""
  },
  {
   "property": "C46",
   "status": "partial",
   "theorems": [
    "C46_transform_partial",
    "C46_default_partial",
    "C46_monotone",
    "C46_round_trip_partial",
    "C46_int64_refuted",
    "C46_unsigned_refuted"
   ],
   "note": "False of the code for 64-bit types (C46_int64_refuted: the clip limit rounds up to 2^63) and unsigned types (C46_unsigned_refuted). Proved for out_max up to 2^53 (round trip: up to 2^31)."
  },
  {
   "property": "C47",
   "status": "partial",
   "theorems": [
    "C47_efficient",
    "C47_find_front_partial",
    "C47_score_column_refuted"
   ],
   "note": "Efficiency proved. find_pareto_front with performance_metric mean_test_score overwrites the column with its negation before comparing with min_performance (C47_score_column_refuted); proved for other columns."
  },
  {
   "property": "C48",
   "status": "partial",
   "theorems": [
    "C48_identifiers_partial",
    "C48_refuses",
    "C48_accepted",
    "C48_newline_refuted",
    "C48_packed_refuted"
   ],
   "note": "False of the code: a trailing newline is accepted (even after a keyword) and _Packed is refused. The accepted set is characterised exactly (C48_accepted)."
  },
  {
   "property": "C49",
   "status": "proved",
   "theorems": [
    "C49_integers",
    "C49_floats",
    "C49_constant",
    "C49_size",
    "C49_literal_unique"
   ],
   "note": ""
  },
  {
   "property": "C50",
   "status": "proved",
   "theorems": [
    "C50_rows",
    "C50_integers"
   ],
   "note": ""
  },
  {
   "property": "C51",
   "status": "partial",
   "theorems": [
    "C51_names_partial",
    "C51_swapped_refuted",
    "C51_other",
    "C51_in_bounds"
   ],
   "note": "False of the code: Unsupported and Uninitialized are exchanged (C51_swapped_refuted). Proved for all other codes."
  },
  {
   "property": "C52",
   "status": "partial",
   "theorems": [
    "C52_vector_set_partial",
    "C52_vector_set_refuted",
    "C52_view"
   ],
   "note": "False when length + location exceeds int (C52_vector_set_refuted). Proved otherwise, for source and destination in different buffers."
  },
  {
   "property": "C53",
   "status": "partial",
   "theorems": [
    "C53_check_sound",
    "C53_check_complete_partial",
    "C53_check_complete_refuted"
   ],
   "note": "Sound for every length; complete only for lengths up to 32767 (int16_t parameters, C53_check_complete_refuted)."
  },
  {
   "property": "C54",
   "status": "partial",
   "theorems": [
    "C54_write_data_partial",
    "C54_write_data_refuted"
   ],
   "note": "False when a value prints as 20 or more characters: part of the row is written (C54_write_data_refuted). Proved otherwise."
  },
  {
   "property": "C55",
   "status": "partial",
   "theorems": [
    "C55_header_partial",
    "C55_header_refuted"
   ],
   "note": "False when the header does not fit the buffer (C55_header_refuted). Proved when it fits."
  },
  {
   "property": "C56",
   "status": "proved",
   "theorems": [
    "C56_generated_table"
   ],
   "note": ""
  },
  {
   "property": "C57",
   "status": "partial",
   "theorems": [
    "C57_iirfilter_partial",
    "C57_iirfilter_exact_partial",
    "C57_columns_refuted"
   ],
   "note": "False of the code: the number of columns is not checked, a five-column matrix is read out of bounds (C57_columns_refuted). Proved for six columns."
  },
  {
   "property": "C58",
   "status": "partial",
   "theorems": [
    "C58_wrong_length_refuted",
    "C58_python_wrong_length"
   ],
   "note": "False of the C function: its error code equals the answer for an outlier (C58_wrong_length_refuted). The Python wrapper raises AssertionError at the first such row (C58_python_wrong_length)."
  },
  {
   "property": "C59",
   "status": "partial",
   "theorems": [
    "C59_predict_partial",
    "C59_predict_refuted"
   ],
   "note": "False of the code for near ties: responsibilities are rounded to six decimals before the maximum is taken (C59_predict_refuted). Proved: greatest up to one millionth."
  },
  {
   "property": "C60",
   "status": "partial",
   "theorems": [
    "C60_values_length_refuted",
    "C60_wrapper_partial"
   ],
   "note": "False of the code: values_length is not used; shorter rows are read out of bounds (C60_values_length_refuted). The Python wrapper does check."
  },
  {
   "property": "C61",
   "status": "proved",
   "theorems": [
    "C61_rfft",
    "C61_raises"
   ],
   "note": ""
  },
  {
   "property": "C62",
   "status": "proved",
   "theorems": [
    "C62_power",
    "C62_in_bounds"
   ],
   "note": ""
  },
  {
   "property": "C63",
   "status": "partial",
   "theorems": [
    "C63_triangles_partial",
    "C63_close_partial",
    "C63_centers",
    "C63_near_bin_refuted"
   ],
   "note": "False in general (C63_near_bin_refuted). C63_triangles_partial characterises exactly when it holds; C63_close_partial bounds the difference otherwise."
  },
  {
   "property": "C64",
   "status": "partial",
   "theorems": [
    "C64_real_parts_partial",
    "C64_even_blocks_partial",
    "C64_imaginary_refuted"
   ],
   "note": "False (C64_imaginary_refuted): only real parts are used. The output is characterised exactly (C64_real_parts_partial)."
  },
  {
   "property": "C65",
   "status": "proved",
   "theorems": [
    "C65_mean",
    "C65_hann",
    "C65_window"
   ],
   "note": ""
  },
  {
   "property": "C66",
   "status": "partial",
   "theorems": [
    "C66_fit_partial",
    "C66_largest_refuted",
    "C66_zeros_refuted"
   ],
   "note": "False of the code: the largest value may come out one less (C66_largest_refuted), and all-zero data divides by zero (C66_zeros_refuted). Proved within one step."
  },
  {
   "property": "C67",
   "status": "partial",
   "theorems": [
    "C67_integers_partial",
    "C67_nan_refuted"
   ],
   "note": "False for dtype float: NaN and infinity are written as nanf and inff (C67_nan_refuted). Proved for integer types."
  },
  {
   "property": "C68",
   "status": "partial",
   "theorems": [
    "C68_constants_partial",
    "C68_arrays_partial",
    "C68_structs_partial",
    "C68_struct_modifiers_refuted"
   ],
   "note": "False for structs: struct_declare drops the modifiers (C68_struct_modifiers_refuted). Everything else proved."
  },
  {
   "property": "C69",
   "status": "partial",
   "theorems": [
    "C69_values_partial",
    "C69_width",
    "C69_range_refuted"
   ],
   "note": "False of the code: values that do not fit 32 bits are written all the same (C69_range_refuted). Proved for values that fit, and the width check."
  },
  {
   "property": "C70",
   "status": "proved",
   "theorems": [
    "C70_predict",
    "C70_predict_complete",
    "C70_long_rows"
   ],
   "note": ""
  },
  {
   "property": "C71",
   "status": "proved",
   "theorems": [
    "C71_predict_proba",
    "C71_predict_proba_complete",
    "C71_long_rows"
   ],
   "note": ""
  },
  {
   "property": "C72",
   "status": "partial",
   "theorems": [
    "C72_small_refuted",
    "C72_exact_partial",
    "C72_close_partial"
   ],
   "note": "False of the code: values are sent with eight decimals (C72_small_refuted). Proved: float32 values with at most eight decimals arrive exactly, all others within 6e-9 + |v|/2^24."
  },
  {
   "property": "C73",
   "status": "proved",
   "theorems": [
    "C73_predict"
   ],
   "note": ""
  },
  {
   "property": "C74",
   "status": "proved",
   "theorems": [
    "C74_predict_proba"
   ],
   "note": ""
  },
  {
   "property": "C75",
   "status": "proved",
   "theorems": [
    "C75_regress"
   ],
   "note": ""
  },
  {
   "property": "C76",
   "status": "partial",
   "theorems": [
    "C76_leaf_values_refuted",
    "C76_inline_leaves_partial"
   ],
   "note": "C76_leaf_values_refuted: inline code writes leaves with six decimals, so a leaf of 1e-7 becomes 0 (loadable keeps it). C76_inline_leaves_partial: every inline leaf is the value through six decimals, within 5.00001e-7 + |x|/2^24, and the answer is the float32 mean of those. Loadable leaves are the nearest float32: C13."
  },
  {
   "property": "C77",
   "status": "proved",
   "theorems": [
    "C77_predict_as_sklearn",
    "C77_regress_as_sklearn"
   ],
   "note": ""
  },
  {
   "property": "C78",
   "status": "proved",
   "theorems": [
    "C78_float_predict",
    "C78_float_as_sklearn",
    "C78_float_proba",
    "C78_float_regress"
   ],
   "note": ""
  },
  {
   "property": "C79",
   "status": "partial",
   "theorems": [
    "C79_float_refuted",
    "C79_int16_refuted"
   ],
   "note": "False: C79_float_refuted (x = 0.5, threshold 0.5 goes right) and C79_int16_refuted (threshold 0.5 becomes 0, so x = 0 goes right). Where the branches do agree: C77 and C78, C11."
  },
  {
   "property": "C80",
   "status": "proved",
   "theorems": [
    "C80_predict",
    "C80_no_history"
   ],
   "note": ""
  },
  {
   "property": "C81",
   "status": "partial",
   "theorems": [
    "C81_integer_parts_partial",
    "C81_integers",
    "C81_fractions_refuted"
   ],
   "note": "False: fractions are cut off, so different training rows become the same item (C81_fractions_refuted). Proved: the integer parts are stored, integers exactly (C81_integers), and what does not fit raises."
  },
  {
   "property": "C82",
   "status": "partial",
   "theorems": [
    "C82_range_partial",
    "C82_raises_refuted",
    "C82_long_row_refuted"
   ],
   "note": "False: a short row gives -1 and a label above 9 gives -5 (C82_raises_refuted); a long row is written past the end of an array (C82_long_row_refuted). Proved: every result is a label of the training data, -1 or -5."
  },
  {
   "property": "C83",
   "status": "partial",
   "theorems": [
    "C83_own_code_partial",
    "C83_taken_over",
    "C83_construction",
    "C83_own_code_refuted",
    "C83_failed_conversion_refuted"
   ],
   "note": "False: all models of a kind share one executable, so converting a second one changes the first (C83_own_code_refuted), even if converting it raises (C83_failed_conversion_refuted); predict runs the program built last (C83_taken_over). Proved when no later model of the same kind is converted."
  },
  {
   "property": "C84",
   "status": "proved",
   "theorems": [
    "C84_own_code",
    "C84_alone"
   ],
   "note": ""
  },
  {
   "property": "C85",
   "status": "partial",
   "theorems": [
    "C85_codes_partial",
    "C85_labels_refuted"
   ],
   "note": "False for every other label set: the codes are returned (C85_labels_refuted). Proved for labels within 0..n-1 (trees); for kNN see C82_range_partial."
  },
  {
   "property": "C86",
   "status": "proved",
   "theorems": [
    "C86_infer",
    "C86_regress",
    "C86_regress1",
    "C86_predict",
    "C86_predict_single",
    "C86_relative"
   ],
   "note": ""
  },
  {
   "property": "C87",
   "status": "proved",
   "theorems": [
    "C87_distance",
    "C87_outlier"
   ],
   "note": ""
  },
  {
   "property": "C88",
   "status": "proved",
   "theorems": [
    "C88_infer",
    "C88_proba",
    "C88_predict",
    "C88_predict_single",
    "C88_libm_exists"
   ],
   "note": ""
  },
  {
   "property": "C89",
   "status": "proved",
   "theorems": [
    "C89_regressor",
    "C89_sklearn",
    "C89_no_hidden_layer"
   ],
   "note": ""
  },
  {
   "property": "C90",
   "status": "proved",
   "theorems": [
    "C90_classes"
   ],
   "note": ""
  },
  {
   "property": "C91",
   "status": "proved",
   "theorems": [
    "C91_outputs",
    "C91_binary"
   ],
   "note": ""
  },
  {
   "property": "C92",
   "status": "proved",
   "theorems": [
    "C92_accepted",
    "C92_same_classes",
    "C92_unknown",
    "C92_activation"
   ],
   "note": ""
  },
  {
   "property": "C93",
   "status": "partial",
   "theorems": [
    "C93_classes_partial",
    "C93_raises_refuted"
   ],
   "note": "False: nothing raises. C93_classes_partial: predict returns -1 for every row; C93_raises_refuted: a regressor returns nan, predict_proba zeros."
  },
  {
   "property": "C94",
   "status": "partial",
   "theorems": [
    "C94_two_outputs_partial",
    "C94_two_outputs_refuted"
   ],
   "note": "False: C94_two_outputs_refuted (outputs 1/4, 3/4 come out as 3/4, 1/4). C94_two_outputs_partial: for all such networks the result is 1 - y0 and y0 within the bounds."
  },
  {
   "property": "C95",
   "status": "partial",
   "theorems": [
    "C95_fixedpoint_refuted"
   ],
   "note": "False for every network (C95_fixedpoint_refuted): NotImplementedError, or the generated test program does not compile."
  },
  {
   "property": "C96",
   "status": "proved",
   "theorems": [
    "C96_step",
    "C96_period",
    "C96_returns",
    "C96_fill",
    "C96_finite"
   ],
   "note": ""
  },
  {
   "property": "C97",
   "status": "proved",
   "theorems": [
    "C97_sizes",
    "C97_no_text",
    "C97_refused"
   ],
   "note": ""
  },
  {
   "property": "C98",
   "status": "partial",
   "theorems": [
    "C98_proportional_refuted",
    "C98_estimate_partial",
    "C98_evaluations_unique"
   ],
   "note": "False: the leaf is counted too, so no constant fits (C98_proportional_refuted). C98_estimate_partial: the estimate is the mean number of evaluations plus the number of trees, for all models and datasets."
  },
  {
   "property": "C99",
   "status": "proved",
   "theorems": [
    "C99_passes"
   ],
   "note": ""
  },
  {
   "property": "C100",
   "status": "proved",
   "theorems": [
    "C100_filterbank",
    "C100_all_options",
    "C100_lengths"
   ],
   "note": ""
  },
  {
   "property": "C101",
   "status": "partial",
   "theorems": [
    "C101_window_partial",
    "C101_default_name",
    "C101_length",
    "C101_long_name_refuted"
   ],
   "note": "False: C101_long_name_refuted (with the default width a name of 71 letters is broken in two). C101_window_partial: names that leave 24 characters of the line, windows of less than 10^10 values under 10^12."
  },
  {
   "property": "C102",
   "status": "partial",
   "theorems": [
    "C102_mel_partial",
    "C102_odd_samplerate_refuted",
    "C102_default_name"
   ],
   "note": "False: C102_odd_samplerate_refuted (the declared fmax is rounded down for every odd samplerate). C102_mel_partial: even samplerate or given fmax, names that leave 24 characters of the line, numbers under 10^12."
  },
  {
   "property": "C103",
   "status": "proved",
   "theorems": [
    "C103_window_lines",
    "C103_mel_lines",
    "C103_width",
    "C103_words"
   ],
   "note": ""
  },
  {
   "property": "C104",
   "status": "proved",
   "theorems": [
    "C104_printed_filterbank"
   ],
   "note": ""
  },
  {
   "property": "C105",
   "status": "partial",
   "theorems": [
    "C105_defaults",
    "C105_options_partial",
    "C105_false_refuted"
   ],
   "note": "False: C105_false_refuted (type=bool: the text False is true). C105_options_partial: exactly which arguments turn the options on."
  },
  {
   "property": "C106",
   "status": "proved",
   "theorems": [
    "C106_score_samples",
    "C106_mahalanobis"
   ],
   "note": ""
  },
  {
   "property": "C107",
   "status": "proved",
   "theorems": [
    "C107_predict"
   ],
   "note": ""
  },
  {
   "property": "C108",
   "status": "proved",
   "theorems": [
    "C108_first_wrong",
    "C108_never_answers"
   ],
   "note": ""
  },
  {
   "property": "C109",
   "status": "partial",
   "theorems": [
    "C109_ordinary_numbers_partial",
    "C109_underflow_refuted"
   ],
   "note": "False: C109_underflow_refuted (the distances are first calculated in Python under numpy.seterr(all='raise') and thrown away). C109_ordinary_numbers_partial: nothing is raised for numbers that are zero or between 2^-140 and 2^126."
  },
  {
   "property": "C110",
   "status": "partial",
   "theorems": [
    "C110_method",
    "C110_other_method",
    "C110_default_refuted"
   ],
   "note": "False of the default: C110_default_refuted. C110_method, C110_other_method: exactly 'inline' is accepted, everything else is a ValueError."
  },
  {
   "property": "C111",
   "status": "proved",
   "theorems": [
    "C111_boundary",
    "C111_str_exists"
   ],
   "note": ""
  },
  {
   "property": "C112",
   "status": "proved",
   "theorems": [
    "C112_score"
   ],
   "note": ""
  },
  {
   "property": "C113",
   "status": "partial",
   "theorems": [
    "C113_predict_partial",
    "C113_leader_partial",
    "C113_log2_exists",
    "C113_one_class_refuted",
    "C113_many_classes_refuted"
   ],
   "note": "False for one class (C113_one_class_refuted: -3 for every row) and above ten (C113_many_classes_refuted: an array is written past its end). C113_predict_partial, C113_leader_partial: 2 to 10 classes, any number of features and rows, numbers that fit 16.16 fixed point."
  },
  {
   "property": "C114",
   "status": "partial",
   "theorems": [
    "C114_equal_priors_partial",
    "C114_priors_ignored",
    "C114_posterior_refuted"
   ],
   "note": "False: the priors are not read (C114_priors_ignored, C114_posterior_refuted). C114_equal_priors_partial: proved when they are equal."
  },
  {
   "property": "C115",
   "status": "partial",
   "theorems": [
    "C115_inline",
    "C115_other",
    "C115_default",
    "C115_zero_variance",
    "C115_short_row_refuted"
   ],
   "note": "False of short rows: C115_short_row_refuted. The rest is proved: C115_inline, C115_other, C115_default, C115_zero_variance."
  },
  {
   "property": "C116",
   "status": "proved",
   "theorems": [
    "C116_score_samples"
   ],
   "note": ""
  },
  {
   "property": "C117",
   "status": "proved",
   "theorems": [
    "C117_predict_proba",
    "C117_predict_log_proba"
   ],
   "note": ""
  },
  {
   "property": "C118",
   "status": "partial",
   "theorems": [
    "C118_predict_partial",
    "C118_leader_partial",
    "C118_wide_refuted"
   ],
   "note": "False: C118_wide_refuted (Cholesky factors below 5e-7 are written as 0.000000, all components look alike and 0 is returned). C118_predict_partial: never a component less probable than another by more than twice the error; C118_leader_partial: a component that leads by more is returned."
  },
  {
   "property": "C119",
   "status": "proved",
   "theorems": [
    "C119_wrong_columns",
    "C119_not_finite",
    "C119_unknown_type",
    "C119_wrong_dimensions",
    "C119_no_rows",
    "C119_method"
   ],
   "note": ""
  },
  {
   "property": "C120",
   "status": "partial",
   "theorems": [
    "C120_unknown",
    "C120_wrong_family",
    "C120_kind_partial",
    "C120_kind_refuted"
   ],
   "note": "False of explicit kinds for trees: C120_kind_refuted (the class name, not kind, decides between classifier and regressor). C120_kind_partial: proved when the names agree on that, and for all other models. C120_unknown, C120_wrong_family: all estimators and options."
  },
  {
   "property": "C121",
   "status": "proved",
   "theorems": [
    "C121_tree_classifier",
    "C121_tree_regressor",
    "C121_tree_classifier_float",
    "C121_tree_regressor_float",
    "C121_neighbors",
    "C121_naive_bayes",
    "C121_envelope",
    "C121_mixture",
    "C121_mlp_classifier"
   ],
   "note": ""
  },
  {
   "property": "C122",
   "status": "partial",
   "theorems": [
    "C122_return_type_partial",
    "C122_default_refuted"
   ],
   "note": "False of MLPRegressor: C122_default_refuted (return_type is 'classifier' unless given). C122_return_type_partial: with return_type='regressor'; tree regressors: C121_tree_regressor."
  },
  {
   "property": "C123",
   "status": "partial",
   "theorems": [
    "C123_method_partial",
    "C123_keywords_partial",
    "C123_mixture_method_refuted",
    "C123_return_type_refuted",
    "C123_dtype_refuted",
    "C123_keywords_refuted"
   ],
   "note": "False: C123_mixture_method_refuted, C123_return_type_refuted, C123_dtype_refuted, C123_keywords_refuted (silently ignored, for every estimator of those kinds). C123_method_partial, C123_keywords_partial: where they are refused."
  },
  {
   "property": "C124",
   "status": "partial",
   "theorems": [
    "C124_predict_proba_refuted",
    "C124_score_samples_refuted",
    "C124_tree_proba_partial",
    "C124_mlp_proba_partial",
    "C124_mixture_partial",
    "C124_envelope_partial"
   ],
   "note": "False: C124_predict_proba_refuted, C124_score_samples_refuted (AttributeError or NotImplementedError for the families named, on every input). C124_tree_proba_partial, C124_mlp_proba_partial, C124_mixture_partial, C124_envelope_partial: the others, with the values."
  },
  {
   "property": "C125",
   "status": "proved",
   "theorems": [
    "C125_function",
    "C125_classes",
    "C125_outputs",
    "C125_values"
   ],
   "note": ""
  },
  {
   "property": "C126",
   "status": "proved",
   "theorems": [
    "C126_filled",
    "C126_any_table"
   ],
   "note": ""
  },
  {
   "property": "C127",
   "status": "proved",
   "theorems": [
    "C127_rfft"
   ],
   "note": ""
  },
  {
   "property": "C128",
   "status": "partial",
   "theorems": [
    "C128_value_partial",
    "C128_only_inside",
    "C128_lengths",
    "C128_outside_refuted"
   ],
   "note": "False of indices outside: C128_outside_refuted (memory outside the arrays is read). C128_value_partial: the sums, when all indices are inside; C128_only_inside: the call returns only then; C128_lengths: different numbers of starts and stops are refused."
  },
  {
   "property": "C129",
   "status": "proved",
   "theorems": [
    "C129_accuracy"
   ],
   "note": ""
  },
  {
   "property": "C130",
   "status": "proved",
   "theorems": [
    "C130_hann",
    "C130_mean"
   ],
   "note": ""
  },
  {
   "property": "C131",
   "status": "proved",
   "theorems": [
    "C131_complete",
    "C131_nothing_else",
    "C131_returns"
   ],
   "note": ""
  },
  {
   "property": "C132",
   "status": "partial",
   "theorems": [
    "C132_refuses",
    "C132_stale_refuted"
   ],
   "note": "False of updates: C132_stale_refuted (a header the new version no longer has stays, in every case). C132_refuses: without update nothing is touched."
  },
  {
   "property": "C133",
   "status": "partial",
   "theorems": [
    "C133_rerun_partial",
    "C133_same_command_refuted"
   ],
   "note": "False of the same command: C133_same_command_refuted (every first installation has a point of interruption after which it is refused although no file is there). C133_rerun_partial: repeated with update it completes after any interruption."
  },
  {
   "property": "C134",
   "status": "partial",
   "theorems": [
    "C134_nothing_refuted",
    "C134_pattern_refuted",
    "C134_header_partial"
   ],
   "note": "False: C134_nothing_refuted (returns although the include directory has nothing or does not exist), C134_pattern_refuted (a path with [ is taken as a pattern). C134_header_partial: the headers of an existing directory without such characters are installed."
  },
  {
   "property": "C135",
   "status": "partial",
   "theorems": [
    "C135_not_computed_refuted",
    "C135_one_refuted",
    "C135_other_partial"
   ],
   "note": "False of every layer: C135_not_computed_refuted (EmlOk, and the output buffer is unchanged). C135_other_partial: other activations are refused."
  },
  {
   "property": "C136",
   "status": "partial",
   "theorems": [
    "C136_log_partial",
    "C136_disabled",
    "C136_space_refuted",
    "C136_array_refuted",
    "C136_percent_refuted"
   ],
   "note": "False of values with spaces (C136_space_refuted), arrays (C136_array_refuted: no equals sign) and names of events with a percent sign (C136_percent_refuted: used as the format). C136_log_partial: all sequences of entries of words, integers, booleans and finite numbers."
  },
  {
   "property": "C137",
   "status": "proved",
   "theorems": [
    "C137_accurate",
    "C137_binding"
   ],
   "note": ""
  },
  {
   "property": "C138",
   "status": "proved",
   "theorems": [
    "C138_stable_iff",
    "C138_gain",
    "C138_poles_exist",
    "C138_output",
    "C138_program"
   ],
   "note": ""
  },
  {
   "property": "C139",
   "status": "proved",
   "theorems": [
    "C139_predict_proba",
    "C139_as_sklearn",
    "C139_float",
    "C139_error_8"
   ],
   "note": ""
  },
  {
   "property": "C140",
   "status": "partial",
   "theorems": [
    "C140_argmax_refuted",
    "C140_predict_partial",
    "C140_float_partial"
   ],
   "note": "False: C140_argmax_refuted (with leaf_bits=2 a share of 24 % is stored as 0; if all shares are, -1 becomes class 1). C140_predict_partial, C140_float_partial: no class has a mean proportion larger by more than twice the error."
  },
  {
   "property": "C141",
   "status": "proved",
   "theorems": [
    "C141_definitions"
   ],
   "note": ""
  },
  {
   "property": "C142",
   "status": "proved",
   "theorems": [
    "C142_classifier",
    "C142_classifier_float",
    "C142_regressor"
   ],
   "note": ""
  },
  {
   "property": "C143",
   "status": "proved",
   "theorems": [
    "C143_reads_back",
    "C143_predict"
   ],
   "note": ""
  },
  {
   "property": "C144",
   "status": "proved",
   "theorems": [
    "C144_reads_back"
   ],
   "note": ""
  },
  {
   "property": "C145",
   "status": "partial",
   "theorems": [
    "C145_trees",
    "C145_neighbors",
    "C145_default_name",
    "C145_positional_partial",
    "C145_bayes_refuted"
   ],
   "note": "False of the code for Bayes models (C145_bayes_refuted): save of bayes.Wrapper takes (file, name), so save(\"m\") overwrites a file m. Proved for the other wrappers."
  },
  {
   "property": "C146",
   "status": "partial",
   "theorems": [
    "C146_names_partial",
    "C146_two_models_refuted",
    "C146_library_refuted"
   ],
   "note": "False of the code (C146_two_models_refuted, C146_library_refuted): a nearest neighbours model m and a model m_data both define m_data, and the name eml_trees is accepted. Proved when neither name is a prefix of the other."
  },
  {
   "property": "C147",
   "status": "proved",
   "theorems": [
    "C147_majority",
    "C147_majority_float",
    "C147_soft",
    "C147_soft_float",
    "C147_regressor",
    "C147_regressor_float"
   ],
   "note": ""
  },
  {
   "property": "C148",
   "status": "proved",
   "theorems": [
    "C148_fractions",
    "C148_fractions_float",
    "C148_means",
    "C148_means_float"
   ],
   "note": ""
  },
  {
   "property": "C149",
   "status": "proved",
   "theorems": [
    "C149_reads_back",
    "C149_wrapper",
    "C149_saves"
   ],
   "note": ""
  },
  {
   "property": "C150",
   "status": "proved",
   "theorems": [
    "C150_reads_back",
    "C150_saves"
   ],
   "note": ""
  },
  {
   "property": "C151",
   "status": "proved",
   "theorems": [
    "C151_reads_back",
    "C151_saves"
   ],
   "note": ""
  },
  {
   "property": "C152",
   "status": "proved",
   "theorems": [
    "C152_reads_back",
    "C152_saves"
   ],
   "note": ""
  }
 ]
}