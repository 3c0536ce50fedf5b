{
 "claims": [
  {
   "property": "C01",
   "status": "proved",
   "theorems": [
    "C01_script_round_trip",
    "C01_layout_exists",
    "C01_quoted_punctuation_refuted",
    "C01_empty_value_refuted"
   ],
   "note": "Round trip for every well-formed tree and every layout; the two documented limits are the _refuted theorems."
  },
  {
   "property": "C02",
   "status": "proved",
   "theorems": [
    "C02_layout_insensitive"
   ],
   "note": ""
  },
  {
   "property": "C03",
   "status": "proved",
   "theorems": [
    "C03_comment_eof_leaks",
    "C03_comment_eof_hangs",
    "C03_script_hangs",
    "C03_final_comment_ignored_refuted"
   ],
   "note": "The code violates what a user expects of a final comment; exact behaviour and refutation are proved."
  },
  {
   "property": "C04",
   "status": "proved",
   "theorems": [
    "C04_lexer_total",
    "C04_char_bound",
    "C04_loop_bound",
    "C04_nul_ends_text",
    "C04_interpreter_total"
   ],
   "note": ""
  },
  {
   "property": "C05",
   "status": "proved",
   "theorems": [
    "C05_error_flag",
    "C05_from_string"
   ],
   "note": ""
  },
  {
   "property": "C06",
   "status": "proved",
   "theorems": [
    "C06_recovery_in_stream",
    "C06_empty_refuted",
    "C06_trailing_name_refuted"
   ],
   "note": "Recovery is safe when the last token is ';', '{' or '}'; out-of-range access otherwise is exhibited."
  },
  {
   "property": "C07",
   "status": "proved",
   "theorems": [
    "C07_unique_last_wins",
    "C07_parsed_unique",
    "C07_secondary_type"
   ],
   "note": ""
  },
  {
   "property": "C08",
   "status": "proved",
   "theorems": [
    "C08_untouched_report",
    "C08_has_untouched",
    "C08_redefined_refuted"
   ],
   "note": "Exact condition; the deviation for redefined settings is refuted."
  },
  {
   "property": "C09",
   "status": "proved",
   "theorems": [
    "C09_merge_values",
    "C09_merge_unknown",
    "C09_merge_allowed",
    "C09_merge_unique"
   ],
   "note": ""
  },
  {
   "property": "C10",
   "status": "proved",
   "theorems": [
    "C10_registry"
   ],
   "note": ""
  },
  {
   "property": "C11",
   "status": "proved",
   "theorems": [
    "C11_is_bool",
    "C11_is_bool_never_throws",
    "C11_get_bool"
   ],
   "note": ""
  },
  {
   "property": "C12",
   "status": "proved",
   "theorems": [
    "C12_is_int32",
    "C12_is_int64",
    "C12_get_signed",
    "C12_is_unsigned",
    "C12_get_unsigned",
    "C12_every_integer_has_a_text",
    "C12_uint32_refuted"
   ],
   "note": "Exact accepted texts and values; the 32-bit unsigned deviation is refuted."
  },
  {
   "property": "C13",
   "status": "proved",
   "theorems": [
    "C13_numeric_vector_doubled",
    "C13_length_refuted",
    "C13_overwrite_doubled",
    "C13_overwrite_text",
    "C13_readers",
    "C13_overwrites",
    "C13_copies"
   ],
   "note": "The code doubles the vectors; the exact result and the refutation are proved."
  },
  {
   "property": "C14",
   "status": "proved",
   "theorems": [
    "C14_include_splices",
    "C14_missing_file_throws",
    "C14_self_include_refuted",
    "C14_open_string_refuted"
   ],
   "note": "Splicing at any depth; missing files throw; self-inclusion and open strings are refuted."
  },
  {
   "property": "C15",
   "status": "proved",
   "theorems": [
    "C15_string_round_trip"
   ],
   "note": ""
  },
  {
   "property": "C16",
   "status": "proved",
   "theorems": [
    "C16_integer_matrix_round_trip",
    "C16_integer_reads"
   ],
   "note": ""
  },
  {
   "property": "C17",
   "status": "proved",
   "theorems": [
    "C17_written_variables"
   ],
   "note": ""
  },
  {
   "property": "C18",
   "status": "proved",
   "theorems": [
    "C18_reads_repeatable",
    "C18_second_read_refuted"
   ],
   "note": "Exact condition for repeatable reads; the use after free is the _refuted theorem."
  },
  {
   "property": "C19",
   "status": "proved",
   "theorems": [
    "C19_one_dimensional_reads",
    "C19_integer_vectors",
    "C19_integer_parts",
    "C19_column_vectors_refuted"
   ],
   "note": "Exact result for every shape; the expected rule is refuted."
  },
  {
   "property": "C20",
   "status": "proved",
   "theorems": [
    "C20_file_type",
    "C20_create"
   ],
   "note": ""
  },
  {
   "property": "C21",
   "status": "proved",
   "theorems": [
    "C21_list_and_scalar",
    "C21_list_and_scalar_hdf5"
   ],
   "note": ""
  },
  {
   "property": "C22",
   "status": "proved",
   "theorems": [
    "C22_scalar_attribute",
    "C22_string_attribute",
    "C22_mat_attribute",
    "C22_no_collision",
    "C22_distinct_attributes_refuted"
   ],
   "note": "Round trip and collision-freeness for names without '_'; the collision is refuted."
  },
  {
   "property": "C23",
   "status": "proved",
   "theorems": [
    "C23_loader_safe",
    "C23_zero_rows_refuted",
    "C23_overflow_refuted"
   ],
   "note": "Undefined behaviour only for the two kinds of header, which are shown to be undefined."
  },
  {
   "property": "C24",
   "status": "proved",
   "theorems": [
    "C24_list_and_array",
    "C24_text_as_numbers",
    "C24_missing",
    "C24_no_rows_refuted",
    "C24_other_variables",
    "C24_new_names",
    "C24_types",
    "C24_mat_strings"
   ],
   "note": "HDF5 itself is modelled as a store of named data sets that returns what was written."
  },
  {
   "property": "C25",
   "status": "proved",
   "theorems": [
    "C25_multi_tables",
    "C25_low_rank_refuted",
    "C25_outside"
   ],
   "note": ""
  },
  {
   "property": "C26",
   "status": "proved",
   "theorems": [
    "C26_one_based",
    "C26_blocks",
    "C26_zero_based",
    "C26_more_messages",
    "C26_any_reports",
    "C26_zero_messages"
   ],
   "note": ""
  },
  {
   "property": "C27",
   "status": "proved",
   "theorems": [
    "C27_schedule_advances",
    "C27_label_once_refuted"
   ],
   "note": ""
  },
  {
   "property": "C28",
   "status": "proved",
   "theorems": [
    "C28_recompose",
    "C28_text",
    "C28_no_colour"
   ],
   "note": ""
  },
  {
   "property": "C29",
   "status": "proved",
   "theorems": [
    "C29_fields",
    "C29_recompose",
    "C29_below_a_day",
    "C29_from_a_day_refuted",
    "C29_totals",
    "C29_text"
   ],
   "note": ""
  },
  {
   "property": "C30",
   "status": "proved",
   "theorems": [
    "C30_accumulates",
    "C30_reset",
    "C30_running",
    "C30_double_stop_refuted",
    "C30_double_continue_refuted"
   ],
   "note": ""
  },
  {
   "property": "C31",
   "status": "proved",
   "theorems": [
    "C31_elementwise",
    "C31_assigning",
    "C31_dot_norm",
    "C31_triangle",
    "C31_normalize",
    "C31_cross",
    "C31_cross_dimension",
    "C31_cross_into",
    "C31_cross_alias_refuted",
    "C31_cross_alias_right_refuted"
   ],
   "note": ""
  },
  {
   "property": "C32",
   "status": "proved",
   "theorems": [
    "C32_products",
    "C32_associative",
    "C32_outer",
    "C32_elementwise",
    "C32_scalar_product_refuted",
    "C32_scalar_minus_refuted",
    "C32_unary_minus_mutates",
    "C32_inplace_first_column",
    "C32_inplace_exact",
    "C32_inplace_refuted",
    "C32_inplace_bounds"
   ],
   "note": ""
  },
  {
   "property": "C33",
   "status": "proved",
   "theorems": [
    "C33_short",
    "C33_long_refuted",
    "C33_encoding_error"
   ],
   "note": ""
  },
  {
   "property": "C34",
   "status": "proved",
   "theorems": [
    "C34_storage",
    "C34_last",
    "C34_no_points",
    "C34_reset",
    "C34_uninitialised_refuted"
   ],
   "note": ""
  },
  {
   "property": "C35",
   "status": "proved",
   "theorems": [
    "C35_accept_iff",
    "C35_rejected",
    "C35_accepted",
    "C35_memory",
    "C35_default",
    "C35_estimate",
    "C35_estimate_nonneg",
    "C35_loop"
   ],
   "note": ""
  },
  {
   "property": "C36",
   "status": "proved",
   "theorems": [
    "C36_history",
    "C36_step"
   ],
   "note": ""
  },
  {
   "property": "C37",
   "status": "proved",
   "theorems": [
    "C37_order",
    "C37_consistency",
    "C37_is_runge_kutta",
    "C37_exact_step",
    "C37_exact_history",
    "C37_integral",
    "C37_linear"
   ],
   "note": ""
  },
  {
   "property": "C38",
   "status": "proved",
   "theorems": [
    "C38_value",
    "C38_smooth",
    "C38_exact"
   ],
   "note": ""
  },
  {
   "property": "C39",
   "status": "proved",
   "theorems": [
    "C39_sorted",
    "C39_any_order",
    "C39_beyond",
    "C39_no_step_refuted",
    "C39_unsorted_refuted"
   ],
   "note": ""
  },
  {
   "property": "C40",
   "status": "proved",
   "theorems": [
    "C40_times",
    "C40_equidistant",
    "C40_few",
    "C40_values"
   ],
   "note": ""
  },
  {
   "property": "C41",
   "status": "proved",
   "theorems": [
    "C41_between",
    "C41_outside",
    "C41_limits",
    "C41_limits_refuted",
    "C41_range",
    "C41_builtin",
    "C41_builtin_colors",
    "C41_gray_monotone",
    "C41_undefined"
   ],
   "note": ""
  },
  {
   "property": "C42",
   "status": "proved",
   "theorems": [
    "C42_ppm_any_size",
    "C42_ppm",
    "C42_ppm_refuted",
    "C42_png",
    "C42_png_any_color",
    "C42_png_refused",
    "C42_bad_pixel",
    "C42_png_refuted"
   ],
   "note": ""
  },
  {
   "property": "C43",
   "status": "proved",
   "theorems": [
    "C43_bounds",
    "C43_history",
    "C43_unchanged_domain",
    "C43_stale_refuted"
   ],
   "note": ""
  },
  {
   "property": "C44",
   "status": "proved",
   "theorems": [
    "C44_exact",
    "C44_never_missed",
    "C44_axis",
    "C44_axisymmetric",
    "C44_no_domain",
    "C44_parallel_refuted",
    "C44_open_refuted"
   ],
   "note": ""
  },
  {
   "property": "C45",
   "status": "proved",
   "theorems": [
    "C45_analytical_refuted",
    "C45_analytical_points",
    "C45_defined",
    "C45_throws",
    "C45_on_contour",
    "C45_extremes",
    "C45_missed_refuted",
    "C45_starts_at_axis_refuted",
    "C45_open_refuted",
    "C45_object",
    "C45_stale_refuted"
   ],
   "note": ""
  },
  {
   "property": "C46",
   "status": "proved",
   "theorems": [
    "C46_not_missed",
    "C46_true_means",
    "C46_cone_hit",
    "C46_axisymmetric",
    "C46_spurious_refuted",
    "C46_ceiling_refuted",
    "C46_pointer",
    "C46_pointer_refuted",
    "C46_outer_ignored"
   ],
   "note": ""
  },
  {
   "property": "C47",
   "status": "proved",
   "theorems": [
    "C47_inside",
    "C47_strength",
    "C47_axisymmetric",
    "C47_axisymmetric_strength",
    "C47_axis",
    "C47_axis_refuted",
    "C47_outside_z",
    "C47_outside_r",
    "C47_outside_refuted",
    "C47_defined",
    "C47_derivatives",
    "C47_null_refuted",
    "C47_jacobian_outside_refuted",
    "C47_flux",
    "C47_flux_gradient",
    "C47_flux_outside_refuted"
   ],
   "note": ""
  },
  {
   "property": "C48",
   "status": "proved",
   "theorems": [
    "C48_transpose",
    "C48_load",
    "C48_verification",
    "C48_object",
    "C48_round_trip",
    "C48_nan_refuted",
    "C48_no_flux_refuted",
    "C48_square_refuted",
    "C48_size_refuted",
    "C48_empty_refuted"
   ],
   "note": ""
  },
  {
   "property": "C49",
   "status": "proved",
   "theorems": [
    "C49_defined",
    "C49_value",
    "C49_same_field",
    "C49_jacobian",
    "C49_divergence",
    "C49_curl",
    "C49_axisymmetric",
    "C49_flux_value",
    "C49_flux_gradient",
    "C49_tangent",
    "C49_flux_field",
    "C49_flux_field_refuted"
   ],
   "note": ""
  },
  {
   "property": "C50",
   "status": "proved",
   "theorems": [
    "C50_norm",
    "C50_negative_refuted",
    "C50_gradient_exact",
    "C50_gradient",
    "C50_gradient_refuted",
    "C50_axis_refuted"
   ],
   "note": ""
  },
  {
   "property": "C51",
   "status": "proved",
   "theorems": [
    "C51_derivative",
    "C51_axis",
    "C51_values",
    "C51_current_defined"
   ],
   "note": ""
  },
  {
   "property": "C52",
   "status": "proved",
   "theorems": [
    "C52_search",
    "C52_total",
    "C52_short",
    "C52_decreasing",
    "C52_decreasing_refuted"
   ],
   "note": ""
  },
  {
   "property": "C53",
   "status": "proved",
   "theorems": [
    "C53_insert",
    "C53_sequence",
    "C53_increasing",
    "C53_below",
    "C53_below_refuted",
    "C53_second"
   ],
   "note": ""
  },
  {
   "property": "C54",
   "status": "proved",
   "theorems": [
    "C54_table",
    "C54_table_refuted",
    "C54_two",
    "C54_short",
    "C54_rejects",
    "C54_limits"
   ],
   "note": ""
  },
  {
   "property": "C55",
   "status": "proved",
   "theorems": [
    "C55_shift",
    "C55_between",
    "C55_tabulated",
    "C55_bounds",
    "C55_below",
    "C55_above",
    "C55_above_refuted",
    "C55_zero",
    "C55_zero_refuted",
    "C55_single",
    "C55_refuses"
   ],
   "note": ""
  },
  {
   "property": "C56",
   "status": "proved",
   "theorems": [
    "C56_momentum",
    "C56_log",
    "C56_log_refuted",
    "C56_radial",
    "C56_permission_refuted"
   ],
   "note": ""
  },
  {
   "property": "C57",
   "status": "proved",
   "theorems": [
    "C57_outside",
    "C57_inside",
    "C57_flip",
    "C57_flip_radial",
    "C57_log_nonneg",
    "C57_log_rejects",
    "C57_log_table",
    "C57_reversed",
    "C57_grids",
    "C57_grids_refuted",
    "C57_exception"
   ],
   "note": ""
  },
  {
   "property": "C58",
   "status": "proved",
   "theorems": [
    "C58_legendre",
    "C58_parity",
    "C58_orthogonal",
    "C58_bounded",
    "C58_modes",
    "C58_short",
    "C58_short_refuted",
    "C58_many",
    "C58_grids",
    "C58_exception",
    "C58_decreasing_refuted",
    "C58_eval",
    "C58_range"
   ],
   "note": ""
  },
  {
   "property": "C59",
   "status": "proved",
   "theorems": [
    "C59_evaluations",
    "C59_history",
    "C59_refuted",
    "C59_clone"
   ],
   "note": ""
  },
  {
   "property": "C60",
   "status": "proved",
   "theorems": [
    "C60_code",
    "C60_code_refused",
    "C60_gocode",
    "C60_gocode_refused",
    "C60_dream",
    "C60_dream_refused",
    "C60_dream_end",
    "C60_dream_refuted"
   ],
   "note": ""
  },
  {
   "property": "C61",
   "status": "proved",
   "theorems": [
    "C61_rejected",
    "C61_outside",
    "C61_shift",
    "C61_clone",
    "C61_linear",
    "C61_linear_range",
    "C61_linear_decreases",
    "C61_power",
    "C61_power_range",
    "C61_power_decreases",
    "C61_power_zero",
    "C61_power_negative",
    "C61_gaussian",
    "C61_gaussian_range",
    "C61_bessel",
    "C61_bessel_range",
    "C61_power_refuted"
   ],
   "note": ""
  },
  {
   "property": "C62",
   "status": "proved",
   "theorems": [
    "C62_avalanche",
    "C62_avalanche_shape",
    "C62_connor_hastie",
    "C62_connor_hastie_shape",
    "C62_connor_hastie_growth",
    "C62_growth_refuted",
    "C62_exponential",
    "C62_exponential_growth",
    "C62_exponential_refuted",
    "C62_singular",
    "C62_clone"
   ],
   "note": ""
  },
  {
   "property": "C63",
   "status": "proved",
   "theorems": [
    "C63_defined",
    "C63_between",
    "C63_outside",
    "C63_below_refuted",
    "C63_single",
    "C63_clone"
   ],
   "note": ""
  },
  {
   "property": "C64",
   "status": "proved",
   "theorems": [
    "C64_product",
    "C64_uniform",
    "C64_clone",
    "C64_clone_analytic"
   ],
   "note": ""
  },
  {
   "property": "C65",
   "status": "proved",
   "theorems": [
    "C65_bracket",
    "C65_nested",
    "C65_unimodal",
    "C65_terminates",
    "C65_local",
    "C65_error",
    "C65_found",
    "C65_default",
    "C65_wrong_half",
    "C65_tolerance_refuted"
   ],
   "note": ""
  },
  {
   "property": "C66",
   "status": "proved",
   "theorems": [
    "C66_six_digits",
    "C66_exact_refuted"
   ],
   "note": "Rounding of decimal text to double is the parameter rnd; exactness is refuted for seven digits."
  },
  {
   "property": "C67",
   "status": "proved",
   "theorems": [
    "C67_mat_header",
    "C67_month_refuted"
   ],
   "note": "Exact header; wrong month for every date and undefined behaviour in January."
  },
  {
   "property": "C68",
   "status": "proved",
   "theorems": [
    "C68_mat_multi_int_refuted"
   ],
   "note": "The code violates what a user expects; exact behaviour is proved."
  },
  {
   "property": "C69",
   "status": "proved",
   "theorems": [
    "C69_errors_contained",
    "C69_error_free",
    "C69_missing_semicolon_refuted"
   ],
   "note": ""
  },
  {
   "property": "C70",
   "status": "proved",
   "theorems": [
    "C70_copy",
    "C70_copy_unused"
   ],
   "note": ""
  },
  {
   "property": "C71",
   "status": "proved",
   "theorems": [
    "C71_first_estimate",
    "C71_growing",
    "C71_not_growing",
    "C71_finished",
    "C71_uninitialised_refuted",
    "C71_average"
   ],
   "note": ""
  },
  {
   "property": "C72",
   "status": "proved",
   "theorems": [
    "C72_alias",
    "C72_scaling_refuted",
    "C72_division_and_fill"
   ],
   "note": ""
  },
  {
   "property": "C73",
   "status": "proved",
   "theorems": [
    "C73_step_ends",
    "C73_fuel"
   ],
   "note": ""
  },
  {
   "property": "C74",
   "status": "proved",
   "theorems": [
    "C74_points"
   ],
   "note": ""
  },
  {
   "property": "C75",
   "status": "proved",
   "theorems": [
    "C75_off"
   ],
   "note": ""
  },
  {
   "property": "C76",
   "status": "proved",
   "theorems": [
    "C76_dispatch",
    "C76_no_colormap_refuted"
   ],
   "note": ""
  },
  {
   "property": "C77",
   "status": "proved",
   "theorems": [
    "C77_throws",
    "C77_extremes",
    "C77_vertical_refuted"
   ],
   "note": ""
  },
  {
   "property": "C78",
   "status": "proved",
   "theorems": [
    "C78_clone",
    "C78_signs",
    "C78_scale",
    "C78_reversed"
   ],
   "note": ""
  },
  {
   "property": "C79",
   "status": "proved",
   "theorems": [
    "C79_grid",
    "C79_values",
    "C79_single_refuted"
   ],
   "note": ""
  },
  {
   "property": "C80",
   "status": "proved",
   "theorems": [
    "C80_clone",
    "C80_separatrix_refuted"
   ],
   "note": ""
  },
  {
   "property": "C81",
   "status": "proved",
   "theorems": [
    "C81_angle",
    "C81_normalise",
    "C81_load",
    "C81_rejects"
   ],
   "note": ""
  },
  {
   "property": "C82",
   "status": "proved",
   "theorems": [
    "C82_insert",
    "C82_insert_alloc",
    "C82_alloc_refuted",
    "C82_initialize",
    "C82_negative"
   ],
   "note": ""
  },
  {
   "property": "C83",
   "status": "proved",
   "theorems": [
    "C83_rejected",
    "C83_no_clone",
    "C83_rejected_refuted"
   ],
   "note": ""
  },
  {
   "property": "C84",
   "status": "proved",
   "theorems": [
    "C84_grid",
    "C84_table",
    "C84_few",
    "C84_agrees"
   ],
   "note": ""
  },
  {
   "property": "C85",
   "status": "proved",
   "theorems": [
    "C85_required",
    "C85_matrix",
    "C85_size",
    "C85_gocode",
    "C85_empty",
    "C85_fraction"
   ],
   "note": ""
  },
  {
   "property": "C86",
   "status": "proved",
   "theorems": [
    "C86_load",
    "C86_eval",
    "C86_momentum",
    "C86_negative",
    "C86_range",
    "C86_refused",
    "C86_no_rows"
   ],
   "note": ""
  },
  {
   "property": "C87",
   "status": "proved",
   "theorems": [
    "C87_name",
    "C87_grid",
    "C87_unique",
    "C87_refused",
    "C87_destroy",
    "C87_destroy_refuted"
   ],
   "note": ""
  },
  {
   "property": "C88",
   "status": "proved",
   "theorems": [
    "C88_momentum",
    "C88_range",
    "C88_load",
    "C88_shifted",
    "C88_refused",
    "C88_no_rows",
    "C88_refuted"
   ],
   "note": ""
  },
  {
   "property": "C89",
   "status": "proved",
   "theorems": [
    "C89_verify",
    "C89_verify_refused",
    "C89_load",
    "C89_momentum",
    "C89_refused",
    "C89_shape",
    "C89_no_rows"
   ],
   "note": ""
  },
  {
   "property": "C90",
   "status": "proved",
   "theorems": [
    "C90_value",
    "C90_exact",
    "C90_higher",
    "C90_terminates",
    "C90_fuel",
    "C90_lower",
    "C90_throws",
    "C90_integral",
    "C90_scale",
    "C90_shift",
    "C90_endless_refuted",
    "C90_cutoff_refuted",
    "C90_outside_refuted"
   ],
   "note": ""
  },
  {
   "property": "C91",
   "status": "proved",
   "theorems": [
    "C91_number_or_not",
    "C91_get_scalar",
    "C91_is_scalar",
    "C91_checked_reads",
    "C91_is_numeric_vector",
    "C91_integers_are_scalars",
    "C91_is_scalar_answers_refuted",
    "C91_whole_value_refuted"
   ],
   "note": ""
  },
  {
   "property": "C92",
   "status": "proved",
   "theorems": [
    "C92_file_text",
    "C92_round_trip",
    "C92_update_text",
    "C92_frame",
    "C92_readers_change_nothing",
    "C92_open_read",
    "C92_missing_file_refuted",
    "C92_lost_writes_refuted",
    "C92_update_refuted",
    "C92_reuse_refuted",
    "C92_after_exception_refuted",
    "C92_close"
   ],
   "note": ""
  },
  {
   "property": "C93",
   "status": "proved",
   "theorems": [
    "C93_hdf5_reads",
    "C93_hdf5_typed",
    "C93_hdf5_rejects",
    "C93_hdf5_round_trip",
    "C93_hdf5_unsigned_refuted",
    "C93_hdf5_out_of_range",
    "C93_hdf5_rank_refuted",
    "C93_sdt_reads",
    "C93_sdt_rejects",
    "C93_sdt_second_read_refuted",
    "C93_sdt_data_type",
    "C93_hdf5_data_type"
   ],
   "note": ""
  },
  {
   "property": "C94",
   "status": "proved",
   "theorems": [
    "C94_round_trip",
    "C94_files_grow",
    "C94_only_writers_change",
    "C94_single_calls",
    "C94_mat_throw_refuted",
    "C94_names",
    "C94_open",
    "C94_open_fails",
    "C94_open_missing",
    "C94_user_block",
    "C94_defined_calls",
    "C94_failed_open_delete_refuted",
    "C94_create"
   ],
   "note": ""
  },
  {
   "property": "C95",
   "status": "proved",
   "theorems": [
    "C95_add",
    "C95_read",
    "C95_attributes_belong",
    "C95_text_as_number_refuted",
    "C95_text_cut",
    "C95_numbers_as_text",
    "C95_matlab_class",
    "C95_list_class_refuted"
   ],
   "note": ""
  },
  {
   "property": "C96",
   "status": "proved",
   "theorems": [
    "C96_programs",
    "C96_one_variable",
    "C96_merge",
    "C96_merge_shares",
    "C96_delete_shared",
    "C96_copy",
    "C96_parents",
    "C96_copy_parents",
    "C96_independent_refuted",
    "C96_delete_refuted",
    "C96_copy_parent_refuted"
   ],
   "note": ""
  },
  {
   "property": "C97",
   "status": "proved",
   "theorems": [
    "C97_same_reading",
    "C97_positions",
    "C97_word",
    "C97_missing_file",
    "C97_source",
    "C97_about_tokens",
    "C97_first_message",
    "C97_first_message_text",
    "C97_line_refuted",
    "C97_quoted_lines_refuted",
    "C97_included_name_refuted"
   ],
   "note": ""
  },
  {
   "property": "C98",
   "status": "proved",
   "theorems": [
    "C98_open_once",
    "C98_refused",
    "C98_root",
    "C98_history",
    "C98_filename",
    "C98_stdin",
    "C98_copy",
    "C98_string_blocks_file_refuted",
    "C98_error_flag_refuted"
   ],
   "note": ""
  },
  {
   "property": "C99",
   "status": "proved",
   "theorems": [
    "C99_sub_blocks",
    "C99_index",
    "C99_equal",
    "C99_equal_contents_refuted"
   ],
   "note": ""
  },
  {
   "property": "C100",
   "status": "proved",
   "theorems": [
    "C100_array",
    "C100_structure",
    "C100_flux",
    "C100_separate",
    "C100_clone",
    "C100_argument",
    "C100_throw",
    "C100_functions",
    "C100_unwritten",
    "C100_deleted",
    "C100_defined",
    "C100_two_results_refuted",
    "C100_derivatives_keep_array_refuted",
    "C100_copied_jacobian_refuted"
   ],
   "note": ""
  },
  {
   "property": "C101",
   "status": "proved",
   "theorems": [
    "C101_careful",
    "C101_call",
    "C101_no_points",
    "C101_evaluate",
    "C101_domain",
    "C101_clone",
    "C101_delete_defined",
    "C101_delete_effect",
    "C101_delete_arrays",
    "C101_released",
    "C101_shared",
    "C101_given_away_refuted",
    "C101_clone_same_refuted"
   ],
   "note": ""
  },
  {
   "property": "C102",
   "status": "proved",
   "theorems": [
    "C102_family",
    "C102_gone",
    "C102_destroyed",
    "C102_delete",
    "C102_kept",
    "C102_stable",
    "C102_table",
    "C102_table_clone",
    "C102_table_delete",
    "C102_unknown_method",
    "C102_new",
    "C102_clone_lives_on_refuted",
    "C102_delete_frees_refuted"
   ],
   "note": ""
  },
  {
   "property": "C103",
   "status": "proved",
   "theorems": [
    "C103_read",
    "C103_integer",
    "C103_fits",
    "C103_vectors",
    "C103_types",
    "C103_int32",
    "C103_uint64",
    "C103_uint32",
    "C103_unset",
    "C103_checks_refuted"
   ],
   "note": ""
  },
  {
   "property": "C104",
   "status": "proved",
   "theorems": [
    "C104_programs",
    "C104_undefined",
    "C104_no_leak",
    "C104_others",
    "C104_throw",
    "C104_overwrite",
    "C104_overwrite_throws",
    "C104_overwrite_keeps_refuted",
    "C104_copy",
    "C104_shared_refuted",
    "C104_identity",
    "C104_script",
    "C104_dangling"
   ],
   "note": ""
  },
  {
   "property": "C105",
   "status": "proved",
   "theorems": [
    "C105_templates",
    "C105_positions",
    "C105_verbatim",
    "C105_messages",
    "C105_one_text",
    "C105_width_refuted",
    "C105_matrix_refuted",
    "C105_filename_refuted",
    "C105_position_format_refuted",
    "C105_radii_refuted"
   ],
   "note": ""
  },
  {
   "property": "C106",
   "status": "proved",
   "theorems": [
    "C106_lines",
    "C106_all_lines",
    "C106_colors",
    "C106_times",
    "C106_expected",
    "C106_overrun_refuted",
    "C106_backwards_refuted",
    "C106_relative_refuted"
   ],
   "note": ""
  },
  {
   "property": "C107",
   "status": "proved",
   "theorems": [
    "C107_load",
    "C107_grid",
    "C107_load_sdt",
    "C107_load_rejects",
    "C107_optional_text_refuted",
    "C107_rank_refuted",
    "C107_save",
    "C107_save_rejects",
    "C107_round_trip",
    "C107_no_flux_refuted",
    "C107_sdt_save_refuted"
   ],
   "note": ""
  },
  {
   "property": "C108",
   "status": "proved",
   "theorems": [
    "C108_forward",
    "C108_binary64",
    "C108_later",
    "C108_stagnation_refuted",
    "C108_gives_up",
    "C108_first_step_refuted",
    "C108_real_steps",
    "C108_dense_interval",
    "C108_uniform"
   ],
   "note": ""
  },
  {
   "property": "C109",
   "status": "proved",
   "theorems": [
    "C109_values",
    "C109_distribution",
    "C109_clone",
    "C109_clone_same",
    "C109_clone_dangling",
    "C109_initialize",
    "C109_flip",
    "C109_copy",
    "C109_independent",
    "C109_overwritten",
    "C109_preserved",
    "C109_memory",
    "C109_delete",
    "C109_delete_distribution",
    "C109_reinitialize",
    "C109_tables",
    "C109_initialises",
    "C109_tables_log",
    "C109_disorder",
    "C109_gone",
    "C109_clone_new",
    "C109_log_short",
    "C109_log_negative",
    "C109_arrays",
    "C109_clone_changed_refuted",
    "C109_clone_log_refuted",
    "C109_initialize_refuted",
    "C109_flip_refuted",
    "C109_twice_refuted"
   ],
   "note": ""
  },
  {
   "property": "C110",
   "status": "proved",
   "theorems": [
    "C110_refused",
    "C110_round_trip_refuted"
   ],
   "note": ""
  },
  {
   "property": "C111",
   "status": "proved",
   "theorems": [
    "C111_defined",
    "C111_close",
    "C111_range",
    "C111_range_refuted",
    "C111_limits",
    "C111_builtin",
    "C111_gray_monotone"
   ],
   "note": ""
  },
  {
   "property": "C112",
   "status": "proved",
   "theorems": [
    "C112_soft_load",
    "C112_soft_momentum",
    "C112_soft_sdt",
    "C112_soft_written",
    "C112_soft_refused",
    "C112_rank_refuted",
    "C112_files",
    "C112_depr_load",
    "C112_depr_variables",
    "C112_luke_load",
    "C112_luke_variables",
    "C112_luke_sdt_refuted"
   ],
   "note": ""
  },
  {
   "property": "C113",
   "status": "proved",
   "theorems": [
    "C113_code",
    "C113_code_variables",
    "C113_code_written",
    "C113_gocode",
    "C113_gocode_variables",
    "C113_gocode_written",
    "C113_dream",
    "C113_dream_variables",
    "C113_dream_written",
    "C113_open",
    "C113_closed_refuted",
    "C113_dream_sdt",
    "C113_rank_refuted",
    "C113_files"
   ],
   "note": ""
  },
  {
   "property": "C114",
   "status": "proved",
   "theorems": [
    "C114_language",
    "C114_values",
    "C114_final_newline",
    "C114_carriage_returns",
    "C114_white_line_refuted"
   ],
   "note": ""
  },
  {
   "property": "C115",
   "status": "proved",
   "theorems": [
    "C115_error",
    "C115_dense",
    "C115_converges",
    "C115_fifth_order",
    "C115_dense_fifth_order"
   ],
   "note": ""
  },
  {
   "property": "C116",
   "status": "proved",
   "theorems": [
    "C116_near",
    "C116_search",
    "C116_converges"
   ],
   "note": ""
  },
  {
   "property": "C117",
   "status": "proved",
   "theorems": [
    "C117_surface",
    "C117_pitch",
    "C117_turns",
    "C117_exists",
    "C117_axis",
    "C117_safety_factor_refuted",
    "C117_thin_torus"
   ],
   "note": ""
  },
  {
   "property": "C118",
   "status": "proved",
   "theorems": [
    "C118_norm",
    "C118_modes",
    "C118_density",
    "C118_at_least",
    "C118_negative_refuted",
    "C118_avalanche",
    "C118_exponential"
   ],
   "note": ""
  },
  {
   "property": "C119",
   "status": "proved",
   "theorems": [
    "C119_rounding",
    "C119_elements",
    "C119_division",
    "C119_dot",
    "C119_dot_double",
    "C119_integers",
    "C119_norm",
    "C119_norm_zero_refuted",
    "C119_normalize",
    "C119_cross",
    "C119_matrix_vector",
    "C119_matrix_matrix",
    "C119_exact"
   ],
   "note": ""
  },
  {
   "property": "C120",
   "status": "proved",
   "theorems": [
    "C120_cell",
    "C120_cells",
    "C120_nodes",
    "C120_range",
    "C120_error",
    "C120_log_nodes",
    "C120_log_error",
    "C120_log_zero",
    "C120_log_nodes_refuted",
    "C120_radial",
    "C120_code",
    "C120_gocode",
    "C120_pitches",
    "C120_converted"
   ],
   "note": ""
  },
  {
   "property": "C121",
   "status": "proved",
   "theorems": [
    "C121_exact",
    "C121_step",
    "C121_error",
    "C121_linear",
    "C121_tiny_steps_refuted"
   ],
   "note": ""
  },
  {
   "property": "C122",
   "status": "proved",
   "theorems": [
    "C122_step",
    "C122_fifth_order",
    "C122_dense",
    "C122_rounded"
   ],
   "note": ""
  },
  {
   "property": "C123",
   "status": "proved",
   "theorems": [
    "C123_independent",
    "C123_pointers",
    "C123_thousand",
    "C123_copies",
    "C123_leak",
    "C123_pointers_refuted",
    "C123_copies_refuted",
    "C123_leak_refuted"
   ],
   "note": ""
  },
  {
   "property": "C124",
   "status": "proved",
   "theorems": [
    "C124_history",
    "C124_change",
    "C124_keeps",
    "C124_constant",
    "C124_reset",
    "C124_change_refuted"
   ],
   "note": ""
  },
  {
   "property": "C125",
   "status": "proved",
   "theorems": [
    "C125_same",
    "C125_makes",
    "C125_after",
    "C125_once",
    "C125_without",
    "C125_delete_each_once_refuted"
   ],
   "note": ""
  }
 ]
}