{
 "claims": [
  {
   "property": "C01",
   "status": "proved",
   "theorems": [
    "C01_single_operation",
    "C01_signed_expression",
    "C01_unsigned_expression",
    "C01_casts"
   ],
   "note": ""
  },
  {
   "property": "C02",
   "status": "proved",
   "theorems": [
    "C02_division_identity",
    "C02_zero_reported",
    "C02_zero_unchecked",
    "C02_trap_never_reported"
   ],
   "note": ""
  },
  {
   "property": "C03",
   "status": "proved",
   "theorems": [
    "C03_shift_left",
    "C03_shift_left_exact",
    "C03_shift_right",
    "C03_negative_reported",
    "C03_wide_shift_never_reported"
   ],
   "note": ""
  },
  {
   "property": "C04",
   "status": "proved",
   "theorems": [
    "C04_integer_power",
    "C04_negative_exponent"
   ],
   "note": ""
  },
  {
   "property": "C05",
   "status": "proved",
   "theorems": [
    "C05_factorial_exact",
    "C05_factorial_overflow",
    "C05_factorial_negative"
   ],
   "note": ""
  },
  {
   "property": "C06",
   "status": "proved",
   "theorems": [
    "C06_binomial_exact",
    "C06_binomial_overflow",
    "C06_binomial_max",
    "C06_binomial_invalid",
    "C06_exact_when_it_fits_refuted"
   ],
   "note": ""
  },
  {
   "property": "C07",
   "status": "proved",
   "theorems": [
    "C07_clamps_nearest",
    "C07_clamps_invalid",
    "C07_in_open",
    "C07_in_closed",
    "C07_ranges_invalid",
    "C07_mins_maxs",
    "C07_abss",
    "C07_abss_min",
    "C07_signs"
   ],
   "note": ""
  },
  {
   "property": "C08",
   "status": "proved",
   "theorems": [
    "C08_fast_power",
    "C08_fast_power_min"
   ],
   "note": ""
  },
  {
   "property": "C09",
   "status": "proved",
   "theorems": [
    "C09_exact",
    "C09_nonfinite",
    "C09_finite_sum_refuted"
   ],
   "note": ""
  },
  {
   "property": "C10",
   "status": "proved",
   "theorems": [
    "C10_exact",
    "C10_underflow",
    "C10_overflow",
    "C10_no_underflow_refuted"
   ],
   "note": ""
  },
  {
   "property": "C11",
   "status": "proved",
   "theorems": [
    "C11_first_order",
    "C11_exact",
    "C11_negative",
    "C11_too_long"
   ],
   "note": ""
  },
  {
   "property": "C12",
   "status": "proved",
   "theorems": [
    "C12_float",
    "C12_exact",
    "C12_empty"
   ],
   "note": ""
  },
  {
   "property": "C13",
   "status": "proved",
   "theorems": [
    "C13_float",
    "C13_exact",
    "C13_mismatch"
   ],
   "note": ""
  },
  {
   "property": "C14",
   "status": "proved",
   "theorems": [
    "C14_float",
    "C14_float_finite",
    "C14_exact",
    "C14_empty",
    "C14_singleton_refuted"
   ],
   "note": ""
  },
  {
   "property": "C15",
   "status": "proved",
   "theorems": [
    "C15_exact",
    "C15_empty"
   ],
   "note": ""
  },
  {
   "property": "C16",
   "status": "proved",
   "theorems": [
    "C16_overflow",
    "C16_special",
    "C16_plain"
   ],
   "note": ""
  },
  {
   "property": "C17",
   "status": "proved",
   "theorems": [
    "C17_seqn_valid",
    "C17_seqn_invalid",
    "C17_seqn_overflow"
   ],
   "note": ""
  },
  {
   "property": "C18",
   "status": "proved",
   "theorems": [
    "C18_seq_valid",
    "C18_seq_invalid"
   ],
   "note": ""
  },
  {
   "property": "C19",
   "status": "proved",
   "theorems": [
    "C19_placeholders",
    "C19_rejected",
    "C19_skip_overflow",
    "C19_laws"
   ],
   "note": ""
  },
  {
   "property": "C20",
   "status": "proved",
   "theorems": [
    "C20_vector",
    "C20_complement",
    "C20_sequence"
   ],
   "note": ""
  },
  {
   "property": "C21",
   "status": "proved",
   "theorems": [
    "C21_last_denotes",
    "C21_indexing",
    "C21_last_overflow"
   ],
   "note": ""
  },
  {
   "property": "C22",
   "status": "proved",
   "theorems": [
    "C22_nested_slices",
    "C22_checked_access",
    "C22_chain_rejected",
    "C22_fill"
   ],
   "note": ""
  },
  {
   "property": "C23",
   "status": "proved",
   "theorems": [
    "C23_snapshot",
    "C23_left_shift",
    "C23_sequential",
    "C23_reverse",
    "C23_right_shift",
    "C23_snapshot_refuted",
    "C23_whole_array"
   ],
   "note": ""
  },
  {
   "property": "C24",
   "status": "proved",
   "theorems": [
    "C24_resize",
    "C24_insert",
    "C24_insert_array",
    "C24_insert_front_back",
    "C24_remove",
    "C24_remove_last",
    "C24_remove_front_back",
    "C24_remove_indexes",
    "C24_invalid",
    "C24_remove_indexes_invalid"
   ],
   "note": ""
  },
  {
   "property": "C25",
   "status": "proved",
   "theorems": [
    "C25_history",
    "C25_history_valid",
    "C25_failed_unchanged"
   ],
   "note": ""
  },
  {
   "property": "C26",
   "status": "proved",
   "theorems": [
    "C26_remove_overflow",
    "C26_remove_back_overflow"
   ],
   "note": ""
  },
  {
   "property": "C27",
   "status": "proved",
   "theorems": [
    "C27_bijection",
    "C27_read",
    "C27_linear",
    "C27_write",
    "C27_outside"
   ],
   "note": ""
  },
  {
   "property": "C28",
   "status": "proved",
   "theorems": [
    "C28_history",
    "C28_valid_history",
    "C28_shape_invariant",
    "C28_failed_unchanged"
   ],
   "note": ""
  },
  {
   "property": "C29",
   "status": "proved",
   "theorems": [
    "C29_new",
    "C29_remove_rows",
    "C29_remove_cols",
    "C29_remove_rows_idx",
    "C29_remove_cols_idx",
    "C29_insert_rows",
    "C29_insert_cols",
    "C29_insert_rows_array",
    "C29_insert_cols_array",
    "C29_insert_row",
    "C29_insert_col",
    "C29_resize",
    "C29_resize_discard",
    "C29_invalid"
   ],
   "note": ""
  },
  {
   "property": "C30",
   "status": "proved",
   "theorems": [
    "C30_offset_ignored",
    "C30_convention_refuted",
    "C30_exclude_last",
    "C30_exclude_last_bad",
    "C30_exclude_refuted"
   ],
   "note": ""
  },
  {
   "property": "C31",
   "status": "proved",
   "theorems": [
    "C31_moves_1d",
    "C31_moves_2d",
    "C31_self_move_2d",
    "C31_self_move_refuted"
   ],
   "note": ""
  },
  {
   "property": "C32",
   "status": "proved",
   "theorems": [
    "C32_mismatched_move"
   ],
   "note": ""
  },
  {
   "property": "C33",
   "status": "proved",
   "theorems": [
    "C33_row",
    "C33_col",
    "C33_diag",
    "C33_main_diagonal",
    "C33_block",
    "C33_blockN",
    "C33_slices",
    "C33_rows",
    "C33_cols",
    "C33_shape",
    "C33_linear",
    "C33_element",
    "C33_element_1d",
    "C33_chain",
    "C33_chain_invalid"
   ],
   "note": ""
  },
  {
   "property": "C34",
   "status": "proved",
   "theorems": [
    "C34_view1D",
    "C34_view1D_line",
    "C34_view2D",
    "C34_negative_refuted"
   ],
   "note": ""
  },
  {
   "property": "C35",
   "status": "proved",
   "theorems": [
    "C35_expression",
    "C35_deref",
    "C35_subscript",
    "C35_order",
    "C35_mixed",
    "C35_mixed_null",
    "C35_null",
    "C35_inverse",
    "C35_step",
    "C35_walk",
    "C35_reverse_walk",
    "C35_reverse",
    "C35_reverse_arithmetic",
    "C35_write",
    "C35_arrays",
    "C35_views",
    "C35_rows",
    "C35_cols"
   ],
   "note": ""
  },
  {
   "property": "C36",
   "status": "proved",
   "theorems": [
    "C36_range",
    "C36_plane",
    "C36_end"
   ],
   "note": ""
  },
  {
   "property": "C37",
   "status": "proved",
   "theorems": [
    "C37_tree",
    "C37_tree2",
    "C37_pointwise",
    "C37_mismatch",
    "C37_pointwise2",
    "C37_eval",
    "C37_eval2",
    "C37_first_failure",
    "C37_too_big",
    "C37_assign",
    "C37_assign_failing",
    "C37_assign_mismatch"
   ],
   "note": ""
  },
  {
   "property": "C38",
   "status": "proved",
   "theorems": [
    "C38_merge",
    "C38_merge_back",
    "C38_merge_front",
    "C38_exclude",
    "C38_exclude_bad",
    "C38_side",
    "C38_side_bad",
    "C38_above",
    "C38_above_bad",
    "C38_neutral",
    "C38_side_all",
    "C38_above_all"
   ],
   "note": ""
  },
  {
   "property": "C39",
   "status": "proved",
   "theorems": [
    "C39_transpose",
    "C39_involution"
   ],
   "note": ""
  },
  {
   "property": "C40",
   "status": "proved",
   "theorems": [
    "C40_irange",
    "C40_irange_m1",
    "C40_irange_m1_empty",
    "C40_irange2",
    "C40_sequence",
    "C40_sequence_unsigned",
    "C40_sequence_bad",
    "C40_e_unit",
    "C40_e_unit_bad",
    "C40_identity",
    "C40_identity_bad",
    "C40_const1",
    "C40_const1_bad",
    "C40_const2",
    "C40_const2_bad",
    "C40_linspace",
    "C40_linspace_bad",
    "C40_linspace_one"
   ],
   "note": ""
  },
  {
   "property": "C41",
   "status": "proved",
   "theorems": [
    "C41_broadcast",
    "C41_tensor",
    "C41_row_reduce",
    "C41_col_reduce",
    "C41_matvec",
    "C41_matvec_bad"
   ],
   "note": ""
  },
  {
   "property": "C42",
   "status": "proved",
   "theorems": [
    "C42_equal",
    "C42_equal2",
    "C42_reflexive",
    "C42_symmetric",
    "C42_transitive",
    "C42_identity",
    "C42_nan"
   ],
   "note": ""
  },
  {
   "property": "C43",
   "status": "proved",
   "theorems": [
    "C43_min",
    "C43_max",
    "C43_index2",
    "C43_empty"
   ],
   "note": ""
  },
  {
   "property": "C44",
   "status": "proved",
   "theorems": [
    "C44_max",
    "C44_min",
    "C44_first",
    "C44_norm_inf",
    "C44_max_abs_error",
    "C44_error_hidden_refuted"
   ],
   "note": ""
  },
  {
   "property": "C45",
   "status": "proved",
   "theorems": [
    "C45_any",
    "C45_all",
    "C45_none",
    "C45_empty",
    "C45_any_stops",
    "C45_all_stops",
    "C45_two_arrays",
    "C45_two_mismatch",
    "C45_value",
    "C45_tests",
    "C45_tests_empty",
    "C45_vacuous_refuted"
   ],
   "note": ""
  },
  {
   "property": "C46",
   "status": "proved",
   "theorems": [
    "C46_sum",
    "C46_prod",
    "C46_fold",
    "C46_merge",
    "C46_sum2",
    "C46_empty",
    "C46_order",
    "C46_additive",
    "C46_dot",
    "C46_dot_mismatch",
    "C46_dot_symmetric",
    "C46_dot_linear",
    "C46_dot2",
    "C46_mean",
    "C46_norm1",
    "C46_norm2",
    "C46_norm_inf",
    "C46_norm_lp",
    "C46_norm_lp_bad",
    "C46_norms",
    "C46_norm_order",
    "C46_norm_inf_attained"
   ],
   "note": ""
  },
  {
   "property": "C47",
   "status": "proved",
   "theorems": [
    "C47_horner",
    "C47_gpolynomial",
    "C47_powers",
    "C47_gpolynomial_mismatch",
    "C47_gpolynomial_negative",
    "C47_powers_mismatch",
    "C47_agree"
   ],
   "note": ""
  },
  {
   "property": "C48",
   "status": "proved",
   "theorems": [
    "C48_select",
    "C48_write",
    "C48_open",
    "C48_closed",
    "C48_places"
   ],
   "note": ""
  },
  {
   "property": "C49",
   "status": "proved",
   "theorems": [
    "C49_range",
    "C49_value",
    "C49_unit",
    "C49_fill",
    "C49_fill_unit",
    "C49_fill_range",
    "C49_reversed",
    "C49_overflow",
    "C49_unsigned_full",
    "C49_draws_mod8",
    "C49_draws_mod128",
    "C49_constant",
    "C49_fill_constant",
    "C49_fill_eventually_constant",
    "C49_stuck_seed",
    "C49_float",
    "C49_float_overflow",
    "C49_bool",
    "C49_bool_fill",
    "C49_same_numbers",
    "C49_fills",
    "C49_expression",
    "C49_expression_fill",
    "C49_expression_reversed",
    "C49_element_refuted"
   ],
   "note": ""
  },
  {
   "property": "C50",
   "status": "proved",
   "theorems": [
    "C50_result",
    "C50_running",
    "C50_direct",
    "C50_never",
    "C50_zero_range",
    "C50_reversed",
    "C50_arrays",
    "C50_arrays_never",
    "C50_expr"
   ],
   "note": ""
  },
  {
   "property": "C51",
   "status": "proved",
   "theorems": [
    "C51_all_or_nothing",
    "C51_read",
    "C51_malformed",
    "C51_text",
    "C51_text_foreign",
    "C51_text_sign",
    "C51_text_overflow",
    "C51_text_malformed_end",
    "C51_every_malformed_token_reported_refuted"
   ],
   "note": ""
  },
  {
   "property": "C52",
   "status": "proved",
   "theorems": [
    "C52_read",
    "C52_blank",
    "C52_bad_first",
    "C52_short_or_malformed",
    "C52_long",
    "C52_text"
   ],
   "note": ""
  },
  {
   "property": "C53",
   "status": "proved",
   "theorems": [
    "C53_abs",
    "C53_abs_sound",
    "C53_abs_symmetric",
    "C53_abs_reflexive",
    "C53_abs_monotone",
    "C53_abs_special",
    "C53_rel",
    "C53_rel_symmetric",
    "C53_rel_reflexive",
    "C53_rel_monotone",
    "C53_rel_nan",
    "C53_tolerance",
    "C53_abs_arrays",
    "C53_rel_arrays",
    "C53_arrays_mismatch",
    "C53_arrays_empty",
    "C53_rel_symmetric_refuted",
    "C53_rel_overflow_refuted"
   ],
   "note": ""
  },
  {
   "property": "C54",
   "status": "proved",
   "theorems": [
    "C54_scalar",
    "C54_array",
    "C54_mismatch",
    "C54_array2",
    "C54_mismatch2",
    "C54_fill",
    "C54_assign",
    "C54_assign2",
    "C54_assign_list",
    "C54_assign_list2",
    "C54_alias",
    "C54_assign_alias",
    "C54_alias_self",
    "C54_for_each",
    "C54_success",
    "C54_failure",
    "C54_alias_refuted",
    "C54_repeated_refuted"
   ],
   "note": ""
  },
  {
   "property": "C55",
   "status": "proved",
   "theorems": [
    "C55_terminate",
    "C55_terminate2",
    "C55_same"
   ],
   "note": ""
  },
  {
   "property": "C56",
   "status": "proved",
   "theorems": [
    "C56_scalars",
    "C56_math",
    "C56_slices",
    "C56_views",
    "C56_iterators",
    "C56_loops",
    "C56_lines",
    "C56_expressions",
    "C56_assignments",
    "C56_reductions",
    "C56_stable",
    "C56_random",
    "C56_reading",
    "C56_programs1",
    "C56_programs2",
    "C56_move_refuted",
    "C56_access",
    "C56_access_at",
    "C56_unchecked_refuted",
    "C56_iterator_access",
    "C56_no_ub1",
    "C56_no_ub2"
   ],
   "note": ""
  },
  {
   "property": "C57",
   "status": "proved",
   "theorems": [
    "C57_plain",
    "C57_stable_sum",
    "C57_stable_dot"
   ],
   "note": ""
  },
  {
   "property": "C58",
   "status": "proved",
   "theorems": [
    "C58_round_trip",
    "C58_round_trip2",
    "C58_smallest_value"
   ],
   "note": ""
  },
  {
   "property": "C59",
   "status": "proved",
   "theorems": [
    "C59_history",
    "C59_sizes",
    "C59_move",
    "C59_move_assign",
    "C59_swap",
    "C59_assign",
    "C59_matrix_new",
    "C59_matrix_fill",
    "C59_matrix_list",
    "C59_matrix_assign_list",
    "C59_matrix_from",
    "C59_matrix_assign",
    "C59_matrix_copy",
    "C59_matrix_copy_assign",
    "C59_matrix_move",
    "C59_matrix_move_assign"
   ],
   "note": ""
  },
  {
   "property": "C60",
   "status": "proved",
   "theorems": [
    "C60_attach1D",
    "C60_attach2D",
    "C60_element",
    "C60_element_2d",
    "C60_safe",
    "C60_alias",
    "C60_length_refuted"
   ],
   "note": ""
  },
  {
   "property": "C61",
   "status": "proved",
   "theorems": [
    "C61_sort",
    "C61_contract",
    "C61_total",
    "C61_sorted",
    "C61_ends",
    "C61_shuffle",
    "C61_comparison",
    "C61_reflexive",
    "C61_repeated",
    "C61_float_order",
    "C61_float",
    "C61_nan_refuted"
   ],
   "note": ""
  },
  {
   "property": "C62",
   "status": "proved",
   "theorems": [
    "C62_distinct",
    "C62_repeat"
   ],
   "note": ""
  },
  {
   "property": "C63",
   "status": "proved",
   "theorems": [
    "C63_read_nearest",
    "C63_read_out_of_range",
    "C63_array_read",
    "C63_array_out_of_range",
    "C63_array_out_of_range_last_refuted",
    "C63_array_foreign",
    "C63_scientific_digits",
    "C63_fixed_digits",
    "C63_number_round_trip",
    "C63_array_round_trip",
    "C63_matrix_round_trip_scientific",
    "C63_matrix_round_trip_fixed",
    "C63_double_default",
    "C63_short_round_trip",
    "C63_float_integers",
    "C63_long_double_integers",
    "C63_float_default_refuted",
    "C63_long_double_default_refuted",
    "C63_fixed_refuted",
    "C63_special_not_read",
    "C63_special_array_not_read",
    "C63_fixed_infinity_undefined",
    "C63_bool_not_read",
    "C63_bool_read"
   ],
   "note": ""
  },
  {
   "property": "C64",
   "status": "proved",
   "theorems": [
    "C64_rands",
    "C64_rands_reported",
    "C64_rands_undefined",
    "C64_span_refuted",
    "C64_quad_refuted",
    "C64_default_bounds",
    "C64_bool",
    "C64_fill",
    "C64_fill_reported",
    "C64_fill_undefined",
    "C64_fills",
    "C64_not0",
    "C64_not0_reported",
    "C64_not0_hangs",
    "C64_not0_fill",
    "C64_not0_fill_ends",
    "C64_not0_fill_reported",
    "C64_expr",
    "C64_expr_reported",
    "C64_expr2",
    "C64_expr2_reported",
    "C64_eval",
    "C64_copies",
    "C64_not0_fills",
    "C64_not0_expr",
    "C64_not0_expr_reported",
    "C64_not0_eval",
    "C64_not0_eval_ends"
   ],
   "note": ""
  },
  {
   "property": "C65",
   "status": "proved",
   "theorems": [
    "C65_integers",
    "C65_rejected",
    "C65_beyond",
    "C65_unchecked",
    "C65_sui",
    "C65_sui_refuted",
    "C65_real",
    "C65_real_rejected",
    "C65_real_faithful",
    "C65_real_exact",
    "C65_real_nearest_refuted",
    "C65_long_double",
    "C65_quad",
    "C65_quad_octal",
    "C65_quad_decimal_refuted",
    "C65_quad_separator_refuted"
   ],
   "note": ""
  },
  {
   "property": "C66",
   "status": "proved",
   "theorems": [
    "C66_gpolynomial",
    "C66_powers",
    "C66_polynomial",
    "C66_empty",
    "C66_mismatch",
    "C66_negative",
    "C66_polynomial_large",
    "C66_polynomial_refuted",
    "C66_pairs",
    "C66_float",
    "C66_norm_lp",
    "C66_is_lp",
    "C66_norm",
    "C66_norm_12",
    "C66_scaled_const",
    "C66_norm_bad",
    "C66_norm_plain_bad",
    "C66_norm_empty"
   ],
   "note": ""
  },
  {
   "property": "C67",
   "status": "proved",
   "theorems": [
    "C67_pow",
    "C67_polynomial",
    "C67_norm_lp"
   ],
   "note": ""
  },
  {
   "property": "C68",
   "status": "proved",
   "theorems": [
    "C68_accepts_one",
    "C68_accepts_two",
    "C68_pointers",
    "C68_detached",
    "C68_declare",
    "C68_no_dangling",
    "C68_careful",
    "C68_unguarded_one",
    "C68_unguarded_two",
    "C68_tensor_guard",
    "C68_transpose",
    "C68_matvec",
    "C68_lval",
    "C68_generate_refuted",
    "C68_pow_prod_refuted",
    "C68_tensor_refuted",
    "C68_index_list_refuted",
    "C68_transpose_refuted",
    "C68_matvec_refuted"
   ],
   "note": ""
  },
  {
   "property": "C69",
   "status": "proved",
   "theorems": [
    "C69_values",
    "C69_plain",
    "C69_empty",
    "C69_plain_empty",
    "C69_norm1",
    "C69_mean",
    "C69_norm1_scaled",
    "C69_norm2",
    "C69_norm2_scaled",
    "C69_dot_special",
    "C69_norm2_special",
    "C69_norm2_overflow_refuted",
    "C69_norm2_underflow_refuted",
    "C69_mean_overflow_refuted"
   ],
   "note": ""
  },
  {
   "property": "C70",
   "status": "proved",
   "theorems": [
    "C70_total",
    "C70_int_fits",
    "C70_int_modulo",
    "C70_int_widening",
    "C70_int_to_float",
    "C70_int_to_float_monotone",
    "C70_float_to_int",
    "C70_float_to_int_undefined",
    "C70_float_to_float",
    "C70_float_to_float_overflow",
    "C70_float_special",
    "C70_float_widening",
    "C70_int_round_trip",
    "C70_int_round_trip_bits",
    "C70_long_double_refuted",
    "C70_long_max_refuted",
    "C70_double_rounding_refuted",
    "C70_from_bool",
    "C70_to_bool",
    "C70_constants",
    "C70_tag",
    "C70_tag_negative",
    "C70_tag_rejects",
    "C70_array_cast"
   ],
   "note": ""
  },
  {
   "property": "C71",
   "status": "proved",
   "theorems": [
    "C71_soundness",
    "C71_config",
    "C71_erasure",
    "C71_erasure_undefined",
    "C71_short_circuit_refuted",
    "C71_mixed_rejected",
    "C71_raw_rejected",
    "C71_conversion_rejected",
    "C71_condition_rejected",
    "C71_operator_rejected",
    "C71_logic_converts_refuted",
    "C71_comparing",
    "C71_int_arith",
    "C71_int_division",
    "C71_int_division_zero",
    "C71_int_shift",
    "C71_bitwise",
    "C71_float_arith",
    "C71_negation",
    "C71_bool_ops"
   ],
   "note": ""
  },
  {
   "property": "C72",
   "status": "proved",
   "theorems": [
    "C72_abs_error",
    "C72_negative_zero",
    "C72_rel_error_none",
    "C72_rel_error",
    "C72_rel_error_within",
    "C72_zero_approx_refuted",
    "C72_overflow_refuted",
    "C72_within_converse_refuted",
    "C72_max_rel_none",
    "C72_max_rel",
    "C72_max_abs_accuracy",
    "C72_max_rel_accuracy",
    "C72_nan_hidden_refuted",
    "C72_matrix",
    "C72_matrix_errors",
    "C72_matrix_mismatch",
    "C72_list",
    "C72_list2",
    "C72_list2_bad"
   ],
   "note": ""
  },
  {
   "property": "C73",
   "status": "proved",
   "theorems": [
    "C73_program",
    "C73_program2",
    "C73_view_follows",
    "C73_size_fixed",
    "C73_row_follows",
    "C73_block_follows",
    "C73_line_follows",
    "C73_table_follows",
    "C73_iterator",
    "C73_checked_refuted",
    "C73_row_refuted",
    "C73_block_refuted"
   ],
   "note": ""
  },
  {
   "property": "C74",
   "status": "proved",
   "theorems": [
    "C74_integers",
    "C74_bools",
    "C74_reals",
    "C74_one_real",
    "C74_integer_array",
    "C74_bool_array",
    "C74_real_array",
    "C74_integer_lines",
    "C74_real_lines"
   ],
   "note": ""
  },
  {
   "property": "C75",
   "status": "proved",
   "theorems": [
    "C75_contract",
    "C75_integer_columns",
    "C75_integer_labels",
    "C75_integer_smallest",
    "C75_bool_columns",
    "C75_bool_labels",
    "C75_labelled_column",
    "C75_fixed_columns",
    "C75_no_carry",
    "C75_fixed_carry_refuted",
    "C75_fixed_infinity",
    "C75_fixed_overflow",
    "C75_scientific_columns",
    "C75_single_exponents",
    "C75_scientific_mixed_refuted",
    "C75_integer_round_trip",
    "C75_fixed_round_trip",
    "C75_scientific_round_trip",
    "C75_array_round_trip",
    "C75_float_array_round_trip",
    "C75_detailed_unreadable",
    "C75_detailed_unreadable_float",
    "C75_empty"
   ],
   "note": ""
  },
  {
   "property": "C76",
   "status": "proved",
   "theorems": [
    "C76_program",
    "C76_deferred",
    "C76_resized",
    "C76_assign",
    "C76_assign_plain",
    "C76_compound",
    "C76_checked_refuted",
    "C76_snapshot_refuted"
   ],
   "note": ""
  },
  {
   "property": "C77",
   "status": "proved",
   "theorems": [
    "C77_soundness",
    "C77_meaning",
    "C77_any_build",
    "C77_builds_agree",
    "C77_one_type",
    "C77_types_kept",
    "C77_untouched",
    "C77_sizes_kept",
    "C77_mismatch",
    "C77_defined",
    "C77_compiles",
    "C77_types",
    "C77_abs",
    "C77_inv",
    "C77_unchecked_refuted",
    "C77_move_refuted",
    "C77_signed_refuted"
   ],
   "note": ""
  },
  {
   "property": "C78",
   "status": "proved",
   "theorems": [
    "C78_ints",
    "C78_bools",
    "C78_reals",
    "C78_int_matrix",
    "C78_bool_matrix",
    "C78_real_matrix",
    "C78_initial",
    "C78_cout",
    "C78_flags_refuted",
    "C78_builtin_ints",
    "C78_indexes",
    "C78_print",
    "C78_printn",
    "C78_print_many",
    "C78_printn_many",
    "C78_values",
    "C78_value",
    "C78_print_later",
    "C78_stream_fails",
    "C78_stream_fails_bool",
    "C78_stream_fails_real",
    "C78_matrix_fails",
    "C78_matrix_fails_real",
    "C78_print_fails",
    "C78_print_many_fails",
    "C78_file",
    "C78_file_closed",
    "C78_file_closed_silent",
    "C78_file_fails",
    "C78_file_kept_refuted",
    "C78_read",
    "C78_read_closed",
    "C78_read_closed_silent",
    "C78_round_trip",
    "C78_round_trip_matrix",
    "C78_round_trip_real",
    "C78_round_trip_real_matrix",
    "C78_default_double",
    "C78_default_float_refuted",
    "C78_named_unreadable",
    "C78_precision",
    "C78_precision_negative",
    "C78_precision_refuted"
   ],
   "note": ""
  },
  {
   "property": "C79",
   "status": "proved",
   "theorems": [
    "C79_read",
    "C79_one_number",
    "C79_malformed",
    "C79_malformed_silent",
    "C79_end_refuted",
    "C79_null_refuted",
    "C79_array_read",
    "C79_array_bad",
    "C79_one_reading",
    "C79_matrix_read",
    "C79_matrix_lines",
    "C79_number",
    "C79_width",
    "C79_put",
    "C79_bad_precision",
    "C79_roundtrip",
    "C79_roundtrip_35",
    "C79_default_refuted",
    "C79_cut_refuted",
    "C79_cut_fixed_refuted",
    "C79_array",
    "C79_array_roundtrip",
    "C79_file_roundtrip"
   ],
   "note": ""
  },
  {
   "property": "C80",
   "status": "proved",
   "theorems": [
    "C80_signs",
    "C80_abss",
    "C80_mins",
    "C80_maxs",
    "C80_mins_maxs_nan",
    "C80_invs",
    "C80_sqrts",
    "C80_floors",
    "C80_ceils",
    "C80_floors_ceils_special",
    "C80_kinds",
    "C80_squares",
    "C80_cubes",
    "C80_clamps",
    "C80_clamps_bad",
    "C80_in",
    "C80_in_bad",
    "C80_power_zero",
    "C80_power",
    "C80_power_negative",
    "C80_abss_refuted",
    "C80_order_refuted",
    "C80_power_refuted"
   ],
   "note": ""
  },
  {
   "property": "C81",
   "status": "proved",
   "theorems": [
    "C81_values",
    "C81_history",
    "C81_history_valid",
    "C81_construct",
    "C81_resize_and_assign",
    "C81_insert",
    "C81_resize",
    "C81_remove",
    "C81_assign",
    "C81_sources"
   ],
   "note": ""
  },
  {
   "property": "C82",
   "status": "proved",
   "theorems": [
    "C82_dot_prod",
    "C82_matvec_prod",
    "C82_mean",
    "C82_norm1",
    "C82_norm1_scaled",
    "C82_norm2",
    "C82_norm2_scaled",
    "C82_prod",
    "C82_polynomial",
    "C82_semi_stable_sum",
    "C82_semi_stable_dot_prod",
    "C82_whole_numbers",
    "C82_whole_dot_prod",
    "C82_semi_dot_exact",
    "C82_semi_dot_other",
    "C82_plain_sum_refuted"
   ],
   "note": ""
  },
  {
   "property": "C83",
   "status": "proved",
   "theorems": [
    "C83_map_read",
    "C83_map_write",
    "C83_alignment",
    "C83_exact",
    "C83_unsigned",
    "C83_signed",
    "C83_accuracy",
    "C83_whole",
    "C83_reported",
    "C83_unchecked",
    "C83_order_refuted"
   ],
   "note": ""
  },
  {
   "property": "C84",
   "status": "proved",
   "theorems": [
    "C84_values",
    "C84_history",
    "C84_history_valid",
    "C84_construct",
    "C84_resize",
    "C84_resize_and_assign",
    "C84_insert",
    "C84_remove",
    "C84_assign",
    "C84_assign_list"
   ],
   "note": ""
  },
  {
   "property": "C85",
   "status": "proved",
   "theorems": [
    "C85_as_pointers",
    "C85_checked",
    "C85_starts",
    "C85_views",
    "C85_address",
    "C85_contiguous_end_refuted",
    "C85_span",
    "C85_default_equal_refuted"
   ],
   "note": ""
  },
  {
   "property": "C86",
   "status": "proved",
   "theorems": [
    "C86_defined",
    "C86_sequence_first",
    "C86_sequence_ordered",
    "C86_sequence_error",
    "C86_sequence_whole",
    "C86_linspace_ordered",
    "C86_linspace_error",
    "C86_linspace_last",
    "C86_linspace_whole",
    "C86_linspace_overflow",
    "C86_end_reached_refuted",
    "C86_inside_refuted",
    "C86_distinct_refuted",
    "C86_finite_refuted"
   ],
   "note": ""
  },
  {
   "property": "C87",
   "status": "proved",
   "theorems": [
    "C87_follow",
    "C87_follow_matrix",
    "C87_matrix_list_moves",
    "C87_apart",
    "C87_apart_matrix",
    "C87_reads",
    "C87_writes",
    "C87_matrix"
   ],
   "note": ""
  },
  {
   "property": "C88",
   "status": "proved",
   "theorems": [
    "C88_blas_array",
    "C88_equal_list",
    "C88_equal_list_matrix",
    "C88_equal_list_ragged",
    "C88_bytes"
   ],
   "note": ""
  },
  {
   "property": "C89",
   "status": "proved",
   "theorems": [
    "C89_assign",
    "C89_assign_exact",
    "C89_mismatch",
    "C89_upright",
    "C89_fresh",
    "C89_compound",
    "C89_transpose_self",
    "C89_update_transpose",
    "C89_deferred",
    "C89_variables",
    "C89_stale_transpose",
    "C89_transpose_refuted",
    "C89_stale_refuted"
   ],
   "note": ""
  },
  {
   "property": "C90",
   "status": "proved",
   "theorems": [
    "C90_assign",
    "C90_exact",
    "C90_rejected",
    "C90_forward",
    "C90_elementwise",
    "C90_resize",
    "C90_compound",
    "C90_matvec",
    "C90_matvec_refuted",
    "C90_merge_refuted"
   ],
   "note": ""
  },
  {
   "property": "C91",
   "status": "proved",
   "theorems": [
    "C91_assign",
    "C91_exact",
    "C91_rejected",
    "C91_forward",
    "C91_resize",
    "C91_compound",
    "C91_rank_one",
    "C91_rank_one_refuted",
    "C91_reverse_refuted"
   ],
   "note": ""
  },
  {
   "property": "C92",
   "status": "proved",
   "theorems": [
    "C92_assign",
    "C92_compound",
    "C92_rejected",
    "C92_assign2",
    "C92_compound2",
    "C92_rejected2",
    "C92_exact",
    "C92_ahead",
    "C92_row_operation",
    "C92_shift_refuted",
    "C92_image_refuted"
   ],
   "note": ""
  },
  {
   "property": "C93",
   "status": "proved",
   "theorems": [
    "C93_order",
    "C93_operands",
    "C93_operators",
    "C93_assign",
    "C93_others",
    "C93_failing",
    "C93_update",
    "C93_compound",
    "C93_increment",
    "C93_order_refuted",
    "C93_compound_refuted",
    "C93_reference_refuted"
   ],
   "note": ""
  },
  {
   "property": "C94",
   "status": "proved",
   "theorems": [
    "C94_restart",
    "C94_new",
    "C94_copy",
    "C94_runs",
    "C94_value",
    "C94_order",
    "C94_sign",
    "C94_whole",
    "C94_negative_refuted"
   ],
   "note": ""
  }
 ]
}