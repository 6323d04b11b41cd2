# Print Assumptions, per theorem (generated by tools/axioms.sh)

## Closed under the global context (no axioms)

C01_flatten_preserves_decisions, C02_forest_preserves_trees, C03_deduplication, C04_conversion_total_one_tree, C04_conversion_total, C05_walk_safe_and_correct, C06_child_fits_refuted, C06_child_fits_partial, C17_distance_iff, C17_distance_refuted, C18_isqrt_partial, C18_isqrt_refuted, C18_isqrt_negative, C19_sort_correct, C20_predict_votes_of_nearest_partial, C20_predict_k_zero, C20_predict_wrong_lengths, C20_predict_k_too_big, C20_predict_exact_nearest_refuted, C21_add_item_history, C21_add_item_result, C21_empty_model, C22_addressing_partial, C22_addressing_refuted, C22_storage_size_refuted, C23_shift_partial, C23_shift_rejected, C23_shift_zero_refuted, C24_copy_partial, C24_copy_value_size_refuted, C25_sliding_window_partial, C25_empty_chunk_refuted, C26_round_trip, C27_read_result_partial, C27_small_columns_refuted, C27_blank_line_refuted, C27_cut_line_refuted, C28_q16_div, C28_nearest_unique, C28_q16_div_wraps, C28_q16_div_by_zero, C29_fromint_toint, C29_q16_mul, C30_precision_31_refuted, C30_range_check, C31_nearer_partial, C31_nearer_refuted, C32_infer, C32_no_history, C32_wrong_length, C32_few_layers, C32_generated, C33_proba_partial, C33_predict, C33_regress, C33_regress1, C34_inline_generation_refuted, C34_template_agrees_partial, C35_argmax_fixed32_refuted, C35_argmax_fixed32_partial, C37_convert_partial, C37_convert_infer_partial, C37_unsupported_layer, C37_unsupported_activation, C38_blocks, C38_two_filters, C38_frame, C38_check, C39_in_bounds_partial, C39_refuses_partial, C39_fill, C39_long_refuted, C40_reverse, C40_involution, C40_swap_loop, C41_same, C42_in_bounds_partial, C44_refused, C48_identifiers_partial, C48_refuses, C48_accepted, C48_newline_refuted, C48_packed_refuted, C49_literal_unique, C51_names_partial, C51_swapped_refuted, C51_other, C51_in_bounds, C52_vector_set_partial, C52_vector_set_refuted, C52_view, C53_check_sound, C53_check_complete_partial, C53_check_complete_refuted, C54_write_data_partial, C54_write_data_refuted, C55_header_partial, C55_header_refuted, C57_iirfilter_partial, C57_columns_refuted, C58_wrong_length_refuted, C58_python_wrong_length, C60_values_length_refuted, C60_wrapper_partial, C61_raises, C62_in_bounds, C68_structs_partial, C68_struct_modifiers_refuted, C81_integer_parts_partial, C96_step, C96_period, C96_returns, C97_sizes, C97_no_text, C97_refused, C98_evaluations_unique, C102_default_name, C103_words, C105_defaults, C105_options_partial, C105_false_refuted, C128_only_inside, C128_lengths, C128_outside_refuted, C131_complete, C131_nothing_else, C131_returns, C132_refuses, C132_stale_refuted, C133_rerun_partial, C133_same_command_refuted, C134_nothing_refuted, C134_pattern_refuted, C134_header_partial, C135_not_computed_refuted, C135_one_refuted, C135_other_partial, C136_disabled, C136_space_refuted, C136_array_refuted, C136_percent_refuted, C145_positional_partial, C145_bayes_refuted

## ClassicalDedekindReals.sig_forall_dec

C38_unique

## ClassicalDedekindReals.sig_forall_dec, ClassicalDedekindReals.sig_not_dec, Classical_Prop.classic, FunctionalExtensionality.functional_extensionality_dep

C04_classifier_accepted, C04_soft_classifier_accepted, C04_regressor_accepted, C07_predict_majority, C07_save_total, C08_proba_is_vote_fraction, C08_error_codes, C08_predict_error_codes, C09_inline_loadable_agree_hard, C10_inline_loadable_proba_agree_soft, C10_predict_agree_soft_partial, C10_predict_agree_soft_refuted, C11_same_branch_partial, C11_same_branch_refuted, C11_same_branch_inline, C11_same_branch_everywhere_iff, C12_quantisation, C13_regression, C13_leaf_is_nearest_float32, C13_unsupported, C14_errors_become_classes_refuted, C14_no_class_becomes_class_1, C14_errors_partial, C15_size_regressor, C15_size_hard_partial, C15_size_soft_partial, C15_size_refuted, C16_csv_roundtrip_partial, C16_threshold_six_decimals, C16_csv_single_leaf_refuted, C16_text_partial, C16_text_regressor_partial, C16_threshold_close, C29_from_float_exact, C29_from_float_error, C30_log2_partial, C30_log2_wraps_refuted, C31_predict_partial, C31_far_value_refuted, C31_large_value_refuted, C31_many_classes_refuted, C31_small_std_refuted, C31_length_refuted, C31_too_few_classes, C33_two_outputs_refuted, C33_two_outputs_swapped, C33_predict_proba_consistent, C35_net_argmax_partial, C35_net_argmax_finite, C35_python_argmax, C36_softmax, C36_softmax_probabilities, C36_logistic, C36_relu, C36_tanh, C37_convert_refuted, C38_difference_equation, C39_dft_partial, C41_python_dense_partial, C41_c_dense_partial, C41_only_bands_refuted, C41_empty_filter_refuted, C42_nyquist_partial, C42_above_nyquist_refuted, C42_many_filters_refuted, C43_distance, C43_python_distance, C43_outlier_float, C43_outlier_exact, C43_python_decision_partial, C43_python_decision_refuted, C44_log_proba, C44_score, C44_predict_proba, C44_logsumexp, C45_forward, C45_forward_plain, C45_bad_cast_iff, C45_mismatch, C45_accuracy, C45_monotone, C45_round_trip, C46_transform_partial, C46_default_partial, C46_monotone, C46_round_trip_partial, C46_int64_refuted, C46_unsigned_refuted, C47_efficient, C47_find_front_partial, C47_score_column_refuted, C49_integers, C49_floats, C49_constant, C49_size, C50_rows, C50_integers, C56_generated_table, C57_iirfilter_exact_partial, C59_predict_partial, C59_predict_refuted, C61_rfft, C62_power, C63_triangles_partial, C63_close_partial, C63_centers, C63_near_bin_refuted, C64_real_parts_partial, C64_even_blocks_partial, C64_imaginary_refuted, C65_mean, C65_hann, C66_fit_partial, C66_largest_refuted, C66_zeros_refuted, C67_integers_partial, C67_nan_refuted, C68_constants_partial, C68_arrays_partial, C69_values_partial, C69_width, C69_range_refuted, C70_predict, C70_predict_complete, C70_long_rows, C71_predict_proba, C71_predict_proba_complete, C71_long_rows, C72_small_refuted, C72_exact_partial, C72_close_partial, C73_predict, C74_predict_proba, C75_regress, C76_leaf_values_refuted, C76_inline_leaves_partial, C77_predict_as_sklearn, C77_regress_as_sklearn, C78_float_predict, C78_float_as_sklearn, C78_float_proba, C78_float_regress, C79_float_refuted, C79_int16_refuted, C80_predict, C80_no_history, C81_integers, C81_fractions_refuted, C82_range_partial, C82_raises_refuted, C82_long_row_refuted, C83_own_code_partial, C83_taken_over, C83_construction, C83_own_code_refuted, C83_failed_conversion_refuted, C84_own_code, C84_alone, C85_codes_partial, C85_labels_refuted, C86_infer, C86_regress, C86_regress1, C86_predict, C86_predict_single, C87_distance, C87_outlier, C88_infer, C88_proba, C88_predict, C88_predict_single, C88_libm_exists, C89_regressor, C89_sklearn, C89_no_hidden_layer, C90_classes, C91_outputs, C91_binary, C92_accepted, C92_same_classes, C92_unknown, C92_activation, C93_classes_partial, C93_raises_refuted, C94_two_outputs_partial, C94_two_outputs_refuted, C95_fixedpoint_refuted, C96_fill, C96_finite, C98_proportional_refuted, C99_passes, C100_filterbank, C100_all_options, C100_lengths, C101_window_partial, C101_default_name, C101_length, C101_long_name_refuted, C102_mel_partial, C102_odd_samplerate_refuted, C103_window_lines, C103_mel_lines, C103_width, C104_printed_filterbank, C106_score_samples, C106_mahalanobis, C107_predict, C108_first_wrong, C108_never_answers, C109_ordinary_numbers_partial, C109_underflow_refuted, C110_method, C110_other_method, C110_default_refuted, C111_boundary, C111_str_exists, C112_score, C113_predict_partial, C113_leader_partial, C113_log2_exists, C113_one_class_refuted, C113_many_classes_refuted, C114_equal_priors_partial, C114_priors_ignored, C114_posterior_refuted, C115_inline, C115_other, C115_default, C115_zero_variance, C115_short_row_refuted, C116_score_samples, C117_predict_proba, C117_predict_log_proba, C118_predict_partial, C118_leader_partial, C118_wide_refuted, C119_wrong_columns, C119_not_finite, C119_unknown_type, C119_wrong_dimensions, C119_no_rows, C119_method, C120_unknown, C120_wrong_family, C120_kind_partial, C120_kind_refuted, C121_tree_classifier, C121_tree_regressor, C121_tree_classifier_float, C121_tree_regressor_float, C121_neighbors, C121_naive_bayes, C121_envelope, C121_mixture, C121_mlp_classifier, C122_return_type_partial, C122_default_refuted, C123_method_partial, C123_keywords_partial, C123_mixture_method_refuted, C123_return_type_refuted, C123_dtype_refuted, C123_keywords_refuted, C124_predict_proba_refuted, C124_score_samples_refuted, C124_tree_proba_partial, C124_mlp_proba_partial, C124_mixture_partial, C124_envelope_partial, C125_function, C125_classes, C125_outputs, C125_values, C126_filled, C126_any_table, C127_rfft, C128_value_partial, C129_accuracy, C130_hann, C130_mean, C137_accurate, C137_binding, C138_program, C139_predict_proba, C139_as_sklearn, C139_float, C140_argmax_refuted, C140_predict_partial, C140_float_partial, C141_definitions, C142_classifier, C142_classifier_float, C142_regressor, C143_reads_back, C143_predict, C144_reads_back, C145_trees, C145_neighbors, C145_default_name, C146_names_partial, C146_two_models_refuted, C146_library_refuted, C147_majority, C147_majority_float, C147_soft, C147_soft_float, C147_regressor, C147_regressor_float, C148_fractions, C148_fractions_float, C148_means, C148_means_float, C149_reads_back, C149_wrapper, C149_saves, C150_reads_back, C150_saves, C151_reads_back, C151_saves, C152_reads_back, C152_saves

## ClassicalDedekindReals.sig_forall_dec, ClassicalDedekindReals.sig_not_dec, FunctionalExtensionality.functional_extensionality_dep

C65_window, C138_stable_iff, C138_gain, C138_poles_exist

## ClassicalDedekindReals.sig_forall_dec, FunctionalExtensionality.functional_extensionality_dep

C16_text_unique, C86_relative, C98_estimate_partial, C136_log_partial, C138_output, C139_error_8
