# Output of Print Assumptions

Generated from the build. Letters stand for axioms of the standard library; `-` means
"Closed under the global context".

* A: `ClassicalDedekindReals.sig_forall_dec`
* B: `ClassicalDedekindReals.sig_not_dec`
* C: `Classical_Prop.classic`
* D: `FunctionalExtensionality.functional_extensionality_dep`

| theorem | axioms |
|---------|--------|
| C01_script_round_trip | - |
| C01_layout_exists | - |
| C01_quoted_punctuation_refuted | - |
| C01_empty_value_refuted | - |
| C02_layout_insensitive | - |
| C03_comment_eof_leaks | - |
| C03_comment_eof_hangs | - |
| C03_script_hangs | - |
| C03_final_comment_ignored_refuted | - |
| C04_lexer_total | - |
| C04_char_bound | - |
| C04_loop_bound | - |
| C04_nul_ends_text | - |
| C04_interpreter_total | - |
| C05_error_flag | - |
| C05_from_string | - |
| C06_recovery_in_stream | - |
| C06_empty_refuted | - |
| C06_trailing_name_refuted | - |
| C07_unique_last_wins | - |
| C07_parsed_unique | - |
| C07_secondary_type | - |
| C08_untouched_report | - |
| C08_has_untouched | - |
| C08_redefined_refuted | - |
| C09_merge_values | - |
| C09_merge_unknown | - |
| C09_merge_allowed | - |
| C09_merge_unique | - |
| C10_registry | - |
| C11_is_bool | - |
| C11_is_bool_never_throws | - |
| C11_get_bool | - |
| C12_is_int32 | - |
| C12_is_int64 | - |
| C12_get_signed | - |
| C12_is_unsigned | - |
| C12_get_unsigned | - |
| C12_every_integer_has_a_text | - |
| C12_uint32_refuted | - |
| C13_numeric_vector_doubled | - |
| C13_length_refuted | - |
| C13_overwrite_doubled | - |
| C13_overwrite_text | - |
| C14_include_splices | - |
| C14_missing_file_throws | - |
| C14_self_include_refuted | - |
| C14_open_string_refuted | - |
| C69_errors_contained | - |
| C69_error_free | - |
| C69_missing_semicolon_refuted | - |
| C70_copy | - |
| C70_copy_unused | - |
| C91_number_or_not | - |
| C91_get_scalar | - |
| C91_is_scalar | - |
| C91_checked_reads | - |
| C91_is_numeric_vector | - |
| C91_integers_are_scalars | - |
| C91_is_scalar_answers_refuted | - |
| C91_whole_value_refuted | - |
| C114_language | - |
| C114_values | - |
| C114_final_newline | - |
| C114_carriage_returns | - |
| C114_white_line_refuted | - |
| C92_file_text | - |
| C92_round_trip | - |
| C92_update_text | - |
| C92_frame | - |
| C92_readers_change_nothing | - |
| C92_open_read | - |
| C92_missing_file_refuted | - |
| C92_lost_writes_refuted | - |
| C92_update_refuted | - |
| C92_reuse_refuted | - |
| C92_after_exception_refuted | - |
| C92_close | - |
| C15_string_round_trip | - |
| C16_integer_matrix_round_trip | - |
| C16_integer_reads | - |
| C17_written_variables | - |
| C18_reads_repeatable | - |
| C18_second_read_refuted | - |
| C19_one_dimensional_reads | - |
| C19_integer_vectors | - |
| C19_integer_parts | - |
| C19_column_vectors_refuted | - |
| C20_file_type | - |
| C20_create | - |
| C21_list_and_scalar | - |
| C21_list_and_scalar_hdf5 | - |
| C22_scalar_attribute | - |
| C22_string_attribute | - |
| C22_mat_attribute | - |
| C22_no_collision | - |
| C22_distinct_attributes_refuted | - |
| C23_loader_safe | - |
| C23_zero_rows_refuted | - |
| C23_overflow_refuted | - |
| C24_list_and_array | - |
| C24_text_as_numbers | - |
| C24_missing | - |
| C24_no_rows_refuted | - |
| C24_other_variables | - |
| C24_new_names | - |
| C24_types | - |
| C24_mat_strings | - |
| C25_multi_tables | - |
| C25_low_rank_refuted | - |
| C25_outside | - |
| C66_six_digits | - |
| C66_exact_refuted | - |
| C110_refused | - |
| C110_round_trip_refuted | - |
| C67_mat_header | - |
| C67_month_refuted | - |
| C68_mat_multi_int_refuted | - |
| C93_hdf5_reads | - |
| C93_hdf5_typed | - |
| C93_hdf5_rejects | - |
| C93_hdf5_round_trip | - |
| C93_hdf5_unsigned_refuted | - |
| C93_hdf5_out_of_range | - |
| C93_hdf5_rank_refuted | - |
| C93_sdt_reads | - |
| C93_sdt_rejects | - |
| C93_sdt_second_read_refuted | - |
| C93_sdt_data_type | - |
| C93_hdf5_data_type | - |
| C94_round_trip | - |
| C94_files_grow | - |
| C94_only_writers_change | - |
| C94_single_calls | - |
| C94_mat_throw_refuted | - |
| C94_names | - |
| C94_open | - |
| C94_open_fails | - |
| C94_open_missing | - |
| C94_user_block | - |
| C94_defined_calls | - |
| C94_failed_open_delete_refuted | - |
| C94_create | - |
| C95_add | - |
| C95_read | - |
| C95_attributes_belong | - |
| C95_text_as_number_refuted | - |
| C95_text_cut | - |
| C95_numbers_as_text | - |
| C95_matlab_class | - |
| C95_list_class_refuted | - |
| C26_one_based | - |
| C26_blocks | - |
| C26_zero_based | - |
| C26_more_messages | - |
| C26_any_reports | - |
| C26_zero_messages | - |
| C27_schedule_advances | - |
| C27_label_once_refuted | - |
| C28_recompose | - |
| C28_text | - |
| C28_no_colour | - |
| C29_fields | - |
| C29_recompose | - |
| C29_below_a_day | - |
| C29_from_a_day_refuted | - |
| C29_totals | - |
| C29_text | - |
| C30_accumulates | - |
| C30_reset | - |
| C30_running | - |
| C30_double_stop_refuted | - |
| C30_double_continue_refuted | - |
| C33_short | - |
| C33_long_refuted | - |
| C33_encoding_error | - |
| C71_first_estimate | - |
| C71_growing | - |
| C71_not_growing | - |
| C71_finished | - |
| C71_uninitialised_refuted | - |
| C71_average | - |
| C31_elementwise | A D |
| C31_assigning | A D |
| C31_dot_norm | A B D |
| C31_triangle | A B D |
| C31_normalize | A B D |
| C31_cross | A D |
| C31_cross_dimension | A |
| C31_cross_into | A |
| C31_cross_alias_refuted | A D |
| C31_cross_alias_right_refuted | A D |
| C72_alias | A D |
| C72_scaling_refuted | A D |
| C72_division_and_fill | A D |
| C32_products | A D |
| C32_associative | A D |
| C32_outer | A |
| C32_elementwise | A |
| C32_scalar_product_refuted | A |
| C32_scalar_minus_refuted | A D |
| C32_unary_minus_mutates | A |
| C32_inplace_first_column | A D |
| C32_inplace_exact | A D |
| C32_inplace_refuted | A D |
| C32_inplace_bounds | A D |
| C34_storage | A |
| C34_last | A |
| C34_no_points | A D |
| C34_reset | A B C D |
| C34_uninitialised_refuted | A B C D |
| C35_accept_iff | A B C D |
| C35_rejected | A B C D |
| C35_accepted | A B C D |
| C35_memory | A B C D |
| C35_default | A B C D |
| C35_estimate | A B D |
| C35_estimate_nonneg | A B D |
| C35_loop | A B C D |
| C36_history | A B C D |
| C36_step | A B C D |
| C37_order | A D |
| C37_consistency | A D |
| C37_is_runge_kutta | A D |
| C37_exact_step | A D |
| C37_exact_history | A B C D |
| C37_integral | A B C D |
| C37_linear | A D |
| C38_value | A B C D |
| C38_smooth | A B C D |
| C38_exact | A B C D |
| C39_sorted | A B C D |
| C39_any_order | A B C D |
| C39_beyond | A B C D |
| C39_no_step_refuted | A D |
| C39_unsorted_refuted | A B C D |
| C40_times | A D |
| C40_equidistant | A D |
| C40_few | A D |
| C40_values | A B C D |
| C73_step_ends | A B C D |
| C73_fuel | A B C D |
| C74_points | A B C D |
| C75_off | A B C D |
| C115_error | A B C D |
| C115_dense | A B C D |
| C115_converges | A B C D |
| C115_fifth_order | A B C D |
| C115_dense_fifth_order | A B C D |
| C41_between | - |
| C41_outside | - |
| C41_limits | - |
| C41_limits_refuted | - |
| C41_range | - |
| C41_builtin | - |
| C41_builtin_colors | - |
| C41_gray_monotone | - |
| C41_undefined | - |
| C42_ppm_any_size | - |
| C42_ppm | - |
| C42_ppm_refuted | - |
| C42_png | - |
| C42_png_any_color | - |
| C42_png_refused | - |
| C42_bad_pixel | - |
| C42_png_refuted | - |
| C76_dispatch | - |
| C76_no_colormap_refuted | - |
| C43_bounds | A D |
| C43_history | A D |
| C43_unchanged_domain | A D |
| C43_stale_refuted | A D |
| C44_exact | A B D |
| C44_never_missed | A B D |
| C44_axis | A B D |
| C44_axisymmetric | A B D |
| C44_no_domain | - |
| C44_parallel_refuted | A B D |
| C44_open_refuted | A B D |
| C45_defined | A D |
| C45_throws | A D |
| C45_on_contour | A D |
| C45_extremes | A D |
| C45_missed_refuted | A D |
| C45_starts_at_axis_refuted | A D |
| C45_open_refuted | A D |
| C45_object | A D |
| C45_stale_refuted | A D |
| C46_not_missed | A B D |
| C46_true_means | A B D |
| C46_cone_hit | A B D |
| C46_axisymmetric | A B D |
| C46_spurious_refuted | A B D |
| C46_ceiling_refuted | A B D |
| C46_pointer | A B D |
| C46_pointer_refuted | A B D |
| C46_outer_ignored | A B D |
| C77_throws | A D |
| C77_extremes | A D |
| C77_vertical_refuted | A D |
| C51_derivative | A B C D |
| C51_axis | A B C D |
| C51_values | A B C D |
| C51_current_defined | A B C D |
| C49_defined | A B C D |
| C49_value | A B C D |
| C49_same_field | A B C D |
| C49_jacobian | A B C D |
| C49_divergence | A B C D |
| C49_curl | A B C D |
| C49_axisymmetric | A B C D |
| C49_flux_value | A B C D |
| C49_flux_gradient | A B C D |
| C49_tangent | A B C D |
| C49_flux_field | A B C D |
| C49_flux_field_refuted | A B C D |
| C50_norm | A B C D |
| C50_negative_refuted | A B C D |
| C50_gradient_exact | A B C D |
| C50_gradient | A B C D |
| C50_gradient_refuted | A B C D |
| C50_axis_refuted | A B C D |
| C45_analytical_refuted | A B D |
| C45_analytical_points | A B D |
| C78_clone | A D |
| C78_signs | A D |
| C78_scale | A B C D |
| C78_reversed | A B C D |
| C79_grid | A D |
| C79_values | A B C D |
| C79_single_refuted | A B C D |
| C117_surface | A B C D |
| C117_pitch | A B C D |
| C117_turns | A B C D |
| C117_exists | A B C D |
| C117_axis | A B C D |
| C117_safety_factor_refuted | A B C D |
| C117_thin_torus | A B D |
| C117_example | A B C D |
| C47_inside | A B D |
| C47_strength | A B D |
| C47_axisymmetric | A B D |
| C47_axisymmetric_strength | A B D |
| C47_axis | A B D |
| C47_axis_refuted | A B D |
| C47_outside_z | A B D |
| C47_outside_r | A B D |
| C47_outside_refuted | A B D |
| C47_defined | A B D |
| C47_derivatives | A B C D |
| C47_null_refuted | A B D |
| C47_jacobian_outside_refuted | A B C D |
| C47_flux | A B D |
| C47_flux_gradient | A B C D |
| C47_flux_outside_refuted | A B D |
| C48_transpose | - |
| C48_load | A D |
| C48_verification | A D |
| C48_object | A D |
| C48_round_trip | A D |
| C48_nan_refuted | A D |
| C48_no_flux_refuted | - |
| C48_square_refuted | A D |
| C48_size_refuted | - |
| C48_empty_refuted | - |
| C80_clone | A D |
| C80_separatrix_refuted | A B D |
| C81_angle | A B C D |
| C81_normalise | A D |
| C81_load | A B C D |
| C81_rejects | A B C D |
| C52_search | A D |
| C52_total | A D |
| C52_short | A D |
| C52_decreasing | A D |
| C52_decreasing_refuted | A D |
| C53_insert | A D |
| C53_sequence | A D |
| C53_increasing | A D |
| C53_below | A D |
| C53_below_refuted | A D |
| C53_second | A D |
| C55_shift | A D |
| C55_between | A D |
| C55_tabulated | A D |
| C55_bounds | A D |
| C55_below | A D |
| C55_above | A D |
| C55_above_refuted | A D |
| C55_zero | A D |
| C55_zero_refuted | A D |
| C55_single | A D |
| C55_refuses | A D |
| C54_table | A D |
| C54_table_refuted | A D |
| C54_two | A D |
| C54_short | A D |
| C54_rejects | A D |
| C54_limits | A D |
| C57_outside | A B D |
| C57_inside | A B D |
| C57_flip | A B D |
| C57_flip_radial | A B D |
| C57_log_nonneg | A B D |
| C57_log_rejects | A B C D |
| C57_log_table | A B C D |
| C57_reversed | A D |
| C57_grids | A D |
| C57_grids_refuted | A D |
| C57_exception | A D |
| C56_momentum | A B D |
| C56_log | A B C D |
| C56_log_refuted | A B C D |
| C56_radial | A B D |
| C56_permission_refuted | A B D |
| C82_insert | A B C D |
| C82_insert_alloc | A B C D |
| C82_alloc_refuted | A B C D |
| C82_initialize | A B C D |
| C82_negative | A B C D |
| C83_rejected | A B D |
| C83_no_clone | A B D |
| C83_rejected_refuted | A B D |
| C58_legendre | A B C D |
| C58_parity | A D |
| C58_orthogonal | A B C D |
| C58_bounded | A B C D |
| C58_modes | A D |
| C58_short | A D |
| C58_short_refuted | A D |
| C58_many | A D |
| C58_grids | A D |
| C58_exception | A D |
| C58_decreasing_refuted | A D |
| C58_eval | A D |
| C58_range | A B C D |
| C59_evaluations | A B C D |
| C59_history | A B C D |
| C59_refuted | A B C D |
| C59_clone | A B C D |
| C84_grid | A B D |
| C84_table | A B C D |
| C84_few | A B C D |
| C84_agrees | A D |
| C63_defined | A D |
| C63_between | A D |
| C63_outside | A D |
| C63_below_refuted | A D |
| C63_single | - |
| C63_clone | A D |
| C60_code | A B C D |
| C60_code_refused | A B D |
| C60_gocode | A B D |
| C60_gocode_refused | A B D |
| C85_required | A B D |
| C85_matrix | A B D |
| C85_size | A B D |
| C85_gocode | A B D |
| C85_empty | A B D |
| C85_fraction | A B D |
| C86_load | A B C D |
| C86_eval | A B C D |
| C86_momentum | A B C D |
| C86_negative | A B C D |
| C86_range | A B C D |
| C86_refused | A B C D |
| C86_no_rows | A B C D |
| C60_dream | A B C D |
| C60_dream_refused | A B C D |
| C60_dream_end | A B C D |
| C87_name | A B C D |
| C87_grid | A B C D |
| C87_unique | - |
| C87_refused | A B C D |
| C87_destroy | A B C D |
| C60_dream_refuted | A B C D |
| C87_destroy_refuted | A B C D |
| C88_momentum | A B C D |
| C88_range | A B C D |
| C88_load | A B C D |
| C88_shifted | A B D |
| C88_refused | A B C D |
| C88_no_rows | A B C D |
| C88_refuted | A B C D |
| C89_verify | A D |
| C89_verify_refused | A D |
| C89_load | A B C D |
| C89_momentum | A B C D |
| C89_refused | A B C D |
| C89_shape | A B C D |
| C89_no_rows | A B C D |
| C61_rejected | A D |
| C61_outside | A B C D |
| C61_shift | A B C D |
| C61_clone | A D |
| C61_linear | A B C D |
| C61_linear_range | A B C D |
| C61_linear_decreases | A B C D |
| C61_power | A B C D |
| C61_power_range | A B C D |
| C61_power_decreases | A B C D |
| C61_power_zero | A B C D |
| C61_power_negative | A B C D |
| C61_gaussian | A B C D |
| C61_gaussian_range | A B C D |
| C61_bessel | A B C D |
| C61_bessel_range | A B C D |
| C61_power_refuted | A B C D |
| C62_avalanche | A B C D |
| C62_avalanche_shape | A B C D |
| C62_connor_hastie | A B D |
| C62_connor_hastie_shape | A B C D |
| C62_connor_hastie_growth | A B C D |
| C62_growth_refuted | A B C D |
| C62_exponential | A B D |
| C62_exponential_growth | A B C D |
| C62_exponential_refuted | A B C D |
| C62_singular | A B D |
| C62_clone | A B D |
| C64_product | A |
| C64_uniform | A B C D |
| C64_clone | A |
| C64_clone_analytic | A B D |
| C65_bracket | A B D |
| C65_nested | A B D |
| C65_unimodal | A B D |
| C65_terminates | A B C D |
| C65_local | A B C D |
| C65_error | A B C D |
| C65_found | A B C D |
| C65_default | A B C D |
| C65_wrong_half | A B D |
| C65_tolerance_refuted | A B C D |
| C90_value | A D |
| C90_exact | A D |
| C90_higher | A D |
| C90_terminates | A D |
| C90_fuel | A D |
| C90_lower | A D |
| C90_throws | A D |
| C90_integral | A B C D |
| C90_scale | A D |
| C90_shift | A D |
| C90_endless_refuted | A B C D |
| C90_cutoff_refuted | A D |
| C90_outside_refuted | A D |
| C116_near | A B C D |
| C116_search | A B C D |
| C116_converges | A B C D |
| C118_norm | A B C D |
| C118_modes | A B C D |
| C118_density | A B C D |
| C118_at_least | A B C D |
| C118_negative_refuted | A B C D |
| C118_avalanche | A B C D |
| C118_exponential | A B C D |
| C118_example | A B C D |
| C96_programs | - |
| C96_one_variable | - |
| C96_merge | - |
| C96_merge_shares | - |
| C96_delete_shared | - |
| C96_copy | - |
| C96_parents | - |
| C96_copy_parents | - |
| C96_independent_refuted | - |
| C96_delete_refuted | - |
| C96_copy_parent_refuted | - |
| C97_same_reading | - |
| C97_positions | - |
| C97_word | - |
| C97_missing_file | - |
| C97_source | - |
| C97_about_tokens | - |
| C97_first_message | - |
| C97_first_message_text | - |
| C97_line_refuted | - |
| C97_quoted_lines_refuted | - |
| C97_included_name_refuted | - |
| C98_open_once | - |
| C98_refused | - |
| C98_root | - |
| C98_history | - |
| C98_filename | - |
| C98_stdin | - |
| C98_copy | - |
| C98_string_blocks_file_refuted | - |
| C98_error_flag_refuted | - |
| C99_sub_blocks | - |
| C99_index | - |
| C99_equal | - |
| C99_equal_contents_refuted | - |
| C100_array | - |
| C100_structure | - |
| C100_flux | - |
| C100_separate | - |
| C100_clone | - |
| C100_argument | - |
| C100_throw | - |
| C100_functions | - |
| C100_unwritten | - |
| C100_deleted | - |
| C100_defined | - |
| C100_two_results_refuted | A D |
| C100_derivatives_keep_array_refuted | A D |
| C100_copied_jacobian_refuted | A D |
| C100_example | A |
| C101_careful | - |
| C101_call | - |
| C101_no_points | - |
| C101_evaluate | - |
| C101_domain | - |
| C101_clone | - |
| C101_delete_defined | - |
| C101_delete_effect | - |
| C101_delete_arrays | - |
| C101_released | - |
| C101_shared | - |
| C101_given_away_refuted | - |
| C101_clone_same_refuted | - |
| C101_example | - |
| C102_family | - |
| C102_gone | - |
| C102_destroyed | - |
| C102_delete | - |
| C102_kept | - |
| C102_stable | - |
| C102_table | - |
| C102_table_clone | - |
| C102_table_delete | - |
| C102_unknown_method | - |
| C102_new | - |
| C102_clone_lives_on_refuted | - |
| C102_delete_frees_refuted | - |
| C103_read | - |
| C103_integer | - |
| C103_fits | - |
| C103_vectors | - |
| C103_types | - |
| C103_int32 | - |
| C103_uint64 | - |
| C103_uint32 | - |
| C103_unset | - |
| C103_checks_refuted | - |
| C104_programs | - |
| C104_undefined | - |
| C104_no_leak | - |
| C104_others | - |
| C104_throw | - |
| C104_overwrite | - |
| C104_overwrite_throws | - |
| C104_overwrite_keeps_refuted | - |
| C104_copy | - |
| C104_shared_refuted | - |
| C104_identity | - |
| C104_script | - |
| C104_dangling | - |
| C13_readers | - |
| C13_overwrites | - |
| C13_copies | - |
| C105_templates | - |
| C105_positions | - |
| C105_verbatim | - |
| C105_messages | - |
| C105_one_text | - |
| C105_width_refuted | - |
| C105_matrix_refuted | - |
| C105_filename_refuted | - |
| C105_position_format_refuted | - |
| C105_radii_refuted | - |
| C106_lines | - |
| C106_all_lines | - |
| C106_colors | - |
| C106_times | - |
| C106_expected | - |
| C106_overrun_refuted | - |
| C106_backwards_refuted | - |
| C106_relative_refuted | - |
| C107_load | A D |
| C107_grid | A D |
| C107_load_sdt | A D |
| C107_load_rejects | A D |
| C107_optional_text_refuted | A D |
| C107_rank_refuted | A D |
| C107_save | A D |
| C107_save_rejects | - |
| C107_round_trip | A D |
| C107_no_flux_refuted | - |
| C107_sdt_save_refuted | - |
| C108_forward | A D |
| C108_binary64 | A B C D |
| C108_later | A B C D |
| C108_stagnation_refuted | A B C D |
| C108_gives_up | A B C D |
| C108_first_step_refuted | A B C D |
| C108_real_steps | A B C D |
| C108_dense_interval | A D |
| C108_uniform | A B C D |
| C108_example | A B C D |
| C109_log_negative | A D |
| C109_arrays | A D |
| C109_values | A D |
| C109_distribution | A D |
| C109_clone | A D |
| C109_clone_same | A D |
| C109_clone_dangling | A D |
| C109_initialize | A D |
| C109_flip | A D |
| C109_copy | A D |
| C109_independent | A D |
| C109_overwritten | A D |
| C109_preserved | A D |
| C109_memory | A D |
| C109_delete | A D |
| C109_delete_distribution | A D |
| C109_reinitialize | A D |
| C109_initialises | A D |
| C109_tables | A D |
| C109_tables_log | A D |
| C109_disorder | A D |
| C109_gone | A D |
| C109_clone_new | A D |
| C109_log_short | A D |
| C109_clone_changed_refuted | A B C D |
| C109_clone_log_refuted | A B C D |
| C109_initialize_refuted | A B C D |
| C109_flip_refuted | A B C D |
| C109_twice_refuted | A B C D |
| C111_defined | A B C D |
| C111_close | A B C D |
| C111_range | A B C D |
| C111_range_refuted | A B C D |
| C111_limits | A B C D |
| C111_builtin | A B C D |
| C111_gray_monotone | A B C D |
| C112_soft_load | A B C D |
| C112_soft_momentum | A B C D |
| C112_soft_sdt | A B C D |
| C112_soft_written | A B C D |
| C112_soft_refused | A B C D |
| C112_rank_refuted | A B C D |
| C112_files | A D |
| C112_depr_load | A B C D |
| C112_depr_variables | A B C D |
| C112_luke_load | A B C D |
| C112_luke_variables | A B C D |
| C112_luke_sdt_refuted | A B C D |
| C113_code | A B C D |
| C113_code_variables | A B D |
| C113_code_written | A B C D |
| C113_gocode | A B C D |
| C113_gocode_variables | A B D |
| C113_gocode_written | A B C D |
| C113_dream | A B C D |
| C113_dream_variables | A B C D |
| C113_dream_written | A B C D |
| C113_open | A D |
| C113_closed_refuted | A B D |
| C113_dream_sdt | A B C D |
| C113_rank_refuted | A B D |
| C113_files | A D |
| C119_rounding | A B C D |
| C119_elements | A D |
| C119_division | A D |
| C119_dot | A D |
| C119_dot_double | A B C D |
| C119_integers | A B C D |
| C119_norm | A B D |
| C119_norm_zero_refuted | A B C D |
| C119_normalize | A B D |
| C119_cross | A D |
| C119_matrix_vector | A D |
| C119_matrix_matrix | A D |
| C119_exact | A B D |
| C120_cell | A B D |
| C120_cells | A D |
| C120_nodes | A B D |
| C120_range | A B D |
| C120_error | A B C D |
| C120_log_nodes | A B C D |
| C120_log_error | A B C D |
| C120_log_zero | A B C D |
| C120_log_nodes_refuted | A B C D |
| C120_radial | A B C D |
| C120_code | A B C D |
| C120_gocode | A B C D |
| C120_pitches | A B C D |
| C120_converted | A B C D |
| C121_exact | A D |
| C121_step | A D |
| C121_error | A B C D |
| C121_linear | A B C D |
| C121_tiny_steps_refuted | A B C D |
| C122_step | A B C D |
| C122_fifth_order | A B C D |
| C122_dense | A B C D |
| C122_rounded | A B C D |
| C123_independent | A B C D |
| C123_pointers | A B C D |
| C123_thousand | A B C D |
| C123_copies | A B C D |
| C123_leak | A B C D |
| C123_pointers_refuted | A B C D |
| C123_copies_refuted | A B C D |
| C123_leak_refuted | A B C D |
| C124_history | A B C D |
| C124_change | A B C D |
| C124_keeps | A D |
| C124_constant | A D |
| C124_reset | A B C D |
| C124_change_refuted | A B C D |
| C125_same | - |
| C125_makes | - |
| C125_after | - |
| C125_once | - |
| C125_without | - |
| C125_delete_each_once_refuted | - |
