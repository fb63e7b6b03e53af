{
 "claims": [
  {
   "property": "C01",
   "status": "proved",
   "theorems": [
    "C01_distance_optimal",
    "C01_every_path"
   ],
   "note": ""
  },
  {
   "property": "C02",
   "status": "proved",
   "theorems": [
    "C02_alignment_attains_distance",
    "C02_alignment_attains_distance_open_begin"
   ],
   "note": ""
  },
  {
   "property": "C03",
   "status": "proved",
   "theorems": [
    "C03_found_iff_exists",
    "C03_found_iff_exists_open_end"
   ],
   "note": ""
  },
  {
   "property": "C04",
   "status": "proved",
   "theorems": [
    "C04_anchored_monotone",
    "C04_monotone_open_begin",
    "C04_leaves_row_predefined"
   ],
   "note": ""
  },
  {
   "property": "C05",
   "status": "proved",
   "theorems": [
    "C05_steps_follow_table",
    "C05_steps_follow_table_open_begin",
    "C05_refined",
    "C05_refined_open_begin"
   ],
   "note": ""
  },
  {
   "property": "C06",
   "status": "proved",
   "theorems": [
    "C06_cost_matrix",
    "C06_cost_matrix_open_begin",
    "C06_symmetric2"
   ],
   "note": ""
  },
  {
   "property": "C07",
   "status": "proved",
   "theorems": [
    "C07_prefix_matrices",
    "C07_prefix_distance",
    "C07_windows"
   ],
   "note": ""
  },
  {
   "property": "C08",
   "status": "proved",
   "theorems": [
    "C08_window_respected",
    "C08_window_respected_open_begin"
   ],
   "note": ""
  },
  {
   "property": "C09",
   "status": "proved",
   "theorems": [
    "C09_inner_point_outside_window",
    "C09_first_point_outside_window"
   ],
   "note": ""
  },
  {
   "property": "C10",
   "status": "proved",
   "theorems": [
    "C10_sakoe_chiba_points_open_begin",
    "C10_sakoe_chiba_points",
    "C10_sakoe_chiba_too_narrow",
    "C10_sakoe_chiba_wide"
   ],
   "note": ""
  },
  {
   "property": "C11",
   "status": "proved",
   "theorems": [
    "C11_itakura_corner",
    "C11_itakura_excluded",
    "C11_itakura_points",
    "C11_slanted_corner",
    "C11_slanted_excluded",
    "C11_slanted_excluded_any",
    "C11_slanted_2_5"
   ],
   "note": ""
  },
  {
   "property": "C12",
   "status": "proved",
   "theorems": [
    "C12_wider_window",
    "C12_wider_window_open_end"
   ],
   "note": ""
  },
  {
   "property": "C13",
   "status": "proved",
   "theorems": [
    "C13_last_row",
    "C13_open_end_choice",
    "C13_open_end_below_closed"
   ],
   "note": ""
  },
  {
   "property": "C14",
   "status": "proved",
   "theorems": [
    "C14_open_begin_optimal",
    "C14_open_begin_found_iff"
   ],
   "note": ""
  },
  {
   "property": "C15",
   "status": "proved",
   "theorems": [
    "C15_open_begin_needs_N",
    "C15_open_end_needs_normalization",
    "C15_open_end_needs_normalization_msg",
    "C15_normalized_distance"
   ],
   "note": ""
  },
  {
   "property": "C16",
   "status": "proved",
   "theorems": [
    "C16_asymmetric_starts_anywhere",
    "C16_rigid_never_first",
    "C16_rigid_equal_lengths_raise",
    "C16_advancing_never_first",
    "C16_advancing_patterns"
   ],
   "note": ""
  },
  {
   "property": "C17",
   "status": "proved",
   "theorems": [
    "C17_distance_only",
    "C17_distance_only_open_begin",
    "C17_distance_only_open_begin_never"
   ],
   "note": ""
  },
  {
   "property": "C18",
   "status": "proved",
   "theorems": [
    "C18_keep_internals",
    "C18_kept_fields"
   ],
   "note": ""
  },
  {
   "property": "C19",
   "status": "proved",
   "theorems": [
    "C19_total_weight",
    "C19_distance_bounds",
    "C19_average_N",
    "C19_constant_cost"
   ],
   "note": ""
  },
  {
   "property": "C20",
   "status": "proved",
   "theorems": [
    "C20_transposed",
    "C20_symmetric_patterns",
    "C20_symmetric_general",
    "C20_sakoe_chiba_symmetric"
   ],
   "note": ""
  },
  {
   "property": "C21",
   "status": "proved",
   "theorems": [
    "C21_raised_costs",
    "C21_raised_costs_open_end"
   ],
   "note": ""
  },
  {
   "property": "C22",
   "status": "proved",
   "theorems": [
    "C22_nonnegative_matrix",
    "C22_nonnegative",
    "C22_nonnegative_named",
    "C22_identity",
    "C22_identity_named"
   ],
   "note": ""
  },
  {
   "property": "C23",
   "status": "proved",
   "theorems": [
    "C23_scaled"
   ],
   "note": ""
  },
  {
   "property": "C24",
   "status": "proved",
   "theorems": [
    "C24_one_per_query",
    "C24_one_per_query_mvm"
   ],
   "note": ""
  },
  {
   "property": "C25",
   "status": "proved",
   "theorems": [
    "C25_limits_respected",
    "C25_limits_exceeded",
    "C25_limits_sufficient_exact",
    "C25_limits_sufficient_binary64",
    "C25_limits_sufficient_fma",
    "C25_unlimited_exact",
    "C25_unlimited_binary64",
    "C25_unlimited_fma",
    "C25_every_pattern"
   ],
   "note": ""
  },
  {
   "property": "C26",
   "status": "proved",
   "theorems": [
    "C26_symmetric1_textbook",
    "C26_symmetric2_textbook",
    "C26_always_found_binary64",
    "C26_always_found_fma",
    "C26_always_found_exact"
   ],
   "note": ""
  },
  {
   "property": "C27",
   "status": "proved",
   "theorems": [
    "C27_mvm_alignment",
    "C27_mvm_limits",
    "C27_mvm_feasible_exact",
    "C27_mvm_feasible_binary64"
   ],
   "note": ""
  },
  {
   "property": "C28",
   "status": "proved",
   "theorems": [
    "C28_construction",
    "C28_predefined",
    "C28_names_cover",
    "C28_order_irrelevant"
   ],
   "note": ""
  },
  {
   "property": "C29",
   "status": "proved",
   "theorems": [
    "C29_builder",
    "C29_weight_sum",
    "C29_weight_totals",
    "C29_unsupported_subtype",
    "C29_unsupported_weighting",
    "C29_unsupported_type"
   ],
   "note": ""
  },
  {
   "property": "C30",
   "status": "proved",
   "theorems": [
    "C30_involution",
    "C30_rows",
    "C30_hints"
   ],
   "note": ""
  },
  {
   "property": "C31",
   "status": "proved",
   "theorems": [
    "C31_every_cell",
    "C31_closed",
    "C31_open_end",
    "C31_counts_fit",
    "C31_named_patterns"
   ],
   "note": ""
  },
  {
   "property": "C32",
   "status": "proved",
   "theorems": [
    "C32_found_iff_exact",
    "C32_found_iff_binary64",
    "C32_found_iff_fma",
    "C32_count_positive"
   ],
   "note": ""
  },
  {
   "property": "C33",
   "status": "proved",
   "theorems": [
    "C33_window_args",
    "C33_weight_marker_exact",
    "C33_weight_marker_binary64",
    "C33_weight_marker_fma",
    "C33_open_begin",
    "C33_open_begin_differs",
    "C33_open_begin_window"
   ],
   "note": ""
  },
  {
   "property": "C34",
   "status": "proved",
   "theorems": [
    "C34_means",
    "C34_usable",
    "C34_named",
    "C34_single_valued",
    "C34_row_by_row",
    "C34_open_begin",
    "C34_needs_alignment"
   ],
   "note": ""
  },
  {
   "property": "C35",
   "status": "proved",
   "theorems": [
    "C35_refuted"
   ],
   "note": ""
  },
  {
   "property": "C36",
   "status": "proved",
   "theorems": [
    "C36_open_begin",
    "C36_sum",
    "C36_exact",
    "C36_row_by_row",
    "C36_nonneg",
    "C36_identity",
    "C36_arithmetic"
   ],
   "note": ""
  },
  {
   "property": "C37",
   "status": "proved",
   "theorems": [
    "C37_no_fault",
    "C37_outcome",
    "C37_bad_id_exits",
    "C37_oversized",
    "C37_negative_step",
    "C37_descending_ids",
    "C37_zero_id"
   ],
   "note": ""
  },
  {
   "property": "C38",
   "status": "proved",
   "theorems": [
    "C38_terminates"
   ],
   "note": ""
  },
  {
   "property": "C39",
   "status": "proved",
   "theorems": [
    "C39_convention_open_begin",
    "C39_convention"
   ],
   "note": ""
  },
  {
   "property": "C40",
   "status": "proved",
   "theorems": [
    "C40_two_arguments",
    "C40_too_many_dimensions",
    "C40_not_a_matrix"
   ],
   "note": ""
  },
  {
   "property": "C41",
   "status": "proved",
   "theorems": [
    "C41_never",
    "C41_message"
   ],
   "note": ""
  },
  {
   "property": "C42",
   "status": "proved",
   "theorems": [
    "C42_obstacles_open_begin",
    "C42_obstacles"
   ],
   "note": ""
  },
  {
   "property": "C43",
   "status": "proved",
   "theorems": [
    "C43_window_by_name",
    "C43_window_omitted",
    "C43_pattern_by_name",
    "C43_unknown_window",
    "C43_unknown_pattern"
   ],
   "note": ""
  },
  {
   "property": "C44",
   "status": "proved",
   "theorems": [
    "C44_double",
    "C44_accuracy",
    "C44_accuracy_fractions",
    "C44_accuracy_open",
    "C44_accuracy_alignment"
   ],
   "note": ""
  },
  {
   "property": "C45",
   "status": "proved",
   "theorems": [
    "C45_density",
    "C45_plain",
    "C45_rejects"
   ],
   "note": ""
  },
  {
   "property": "C46",
   "status": "proved",
   "theorems": [
    "C46_twoway",
    "C46_twoway_given",
    "C46_threeway",
    "C46_negative",
    "C46_outside_twoway",
    "C46_outside_threeway",
    "C46_arithmetic"
   ],
   "note": ""
  },
  {
   "property": "C47",
   "status": "proved",
   "theorems": [
    "C47_types",
    "C47_alignment",
    "C47_need_alignment"
   ],
   "note": ""
  },
  {
   "property": "C48",
   "status": "proved",
   "theorems": [
    "C48_required",
    "C48_matrix_call",
    "C48_lone_series",
    "C48_vectors",
    "C48_multivariate"
   ],
   "note": ""
  },
  {
   "property": "C49",
   "status": "proved",
   "theorems": [
    "C49_cli"
   ],
   "note": ""
  },
  {
   "property": "C50",
   "status": "proved",
   "theorems": [
    "C50_labels",
    "C50_text",
    "C50_text_injective",
    "C50_plot"
   ],
   "note": ""
  },
  {
   "property": "C51",
   "status": "proved",
   "theorems": [
    "C51_distance",
    "C51_normalized",
    "C51_failures"
   ],
   "note": ""
  },
  {
   "property": "C52",
   "status": "proved",
   "theorems": [
    "C52_closed",
    "C52_closed_failures",
    "C52_open",
    "C52_series",
    "C52_costs",
    "C52_patterns",
    "C52_patterns_mvm",
    "C52_patterns_open",
    "C52_no_window",
    "C52_sakoe_chiba",
    "C52_symmetric2_differs"
   ],
   "note": ""
  },
  {
   "property": "C53",
   "status": "proved",
   "theorems": [
    "C53_zero"
   ],
   "note": ""
  },
  {
   "property": "C54",
   "status": "proved",
   "theorems": [
    "C54_lower",
    "C54_upper",
    "C54_lower_patterns",
    "C54_lower_mvm",
    "C54_upper_patterns"
   ],
   "note": ""
  },
  {
   "property": "C55",
   "status": "proved",
   "theorems": [
    "C55_mask",
    "C55_patterns",
    "C55_patterns_mvm",
    "C55_inner_points_differ"
   ],
   "note": ""
  },
  {
   "property": "C56",
   "status": "proved",
   "theorems": [
    "C56_prefix"
   ],
   "note": ""
  },
  {
   "property": "C57",
   "status": "proved",
   "theorems": [
    "C57_passes"
   ],
   "note": ""
  },
  {
   "property": "C58",
   "status": "proved",
   "theorems": [
    "C58_longer"
   ],
   "note": ""
  },
  {
   "property": "C59",
   "status": "proved",
   "theorems": [
    "C59_delannoy",
    "C59_trinomial"
   ],
   "note": ""
  },
  {
   "property": "C60",
   "status": "proved",
   "theorems": [
    "C60_suffix"
   ],
   "note": ""
  },
  {
   "property": "C61",
   "status": "proved",
   "theorems": [
    "C61_integers_exact_named",
    "C61_integers_exact",
    "C61_integer_series"
   ],
   "note": ""
  },
  {
   "property": "C62",
   "status": "proved",
   "theorems": [
    "C62_fused_same_named",
    "C62_fused_same",
    "C62_fused_series",
    "C62_thirds_differ"
   ],
   "note": ""
  },
  {
   "property": "C63",
   "status": "proved",
   "theorems": [
    "C63_unit_named",
    "C63_unit",
    "C63_ten_differs"
   ],
   "note": ""
  },
  {
   "property": "C64",
   "status": "proved",
   "theorems": [
    "C64_distance",
    "C64_normalized"
   ],
   "note": ""
  },
  {
   "property": "C65",
   "status": "proved",
   "theorems": [
    "C65_held_named",
    "C65_held"
   ],
   "note": ""
  },
  {
   "property": "C66",
   "status": "proved",
   "theorems": [
    "C66_joined_named",
    "C66_joined"
   ],
   "note": ""
  },
  {
   "property": "C67",
   "status": "proved",
   "theorems": [
    "C67_normalized",
    "C67_open_end",
    "C67_open_end_exists",
    "C67_end_column"
   ],
   "note": ""
  },
  {
   "property": "C68",
   "status": "proved",
   "theorems": [
    "C68_weak_triangle",
    "C68_weak_triangle_series",
    "C68_windows_none",
    "C68_windows_sakoe"
   ],
   "note": ""
  },
  {
   "property": "C69",
   "status": "proved",
   "theorems": [
    "C69_import",
    "C69_calls_change_nothing",
    "C69_call_outcome",
    "C69_call_after_calls",
    "C69_call_with_defaults",
    "C69_results_stay",
    "C69_import_stays",
    "C69_transposed_is_new",
    "C69_countPaths_reads",
    "C69_warpArea_reads",
    "C69_warp_reads",
    "C69_history_goes_on",
    "C69_after_exception"
   ],
   "note": ""
  },
  {
   "property": "C70",
   "status": "proved",
   "theorems": [
    "C70_what_results_share",
    "C70_own_memory",
    "C70_shared_objects",
    "C70_results_disjoint"
   ],
   "note": ""
  },
  {
   "property": "C71",
   "status": "proved",
   "theorems": [
    "C71_threads_independent",
    "C71_threads_dtw",
    "C71_uninterrupted",
    "C71_runs_end"
   ],
   "note": ""
  },
  {
   "property": "C72",
   "status": "proved",
   "theorems": [
    "C72_interrupted",
    "C72_call_after",
    "C72_results_after"
   ],
   "note": ""
  },
  {
   "property": "C73",
   "status": "proved",
   "theorems": [
    "C73_needed",
    "C73_rejected",
    "C73_unknown_window",
    "C73_unknown_pattern",
    "C73_ignored"
   ],
   "note": ""
  },
  {
   "property": "C74",
   "status": "proved",
   "theorems": [
    "C74_closed_end",
    "C74_open_end",
    "C74_named",
    "C74_mvm"
   ],
   "note": ""
  },
  {
   "property": "C75",
   "status": "proved",
   "theorems": [
    "C75_first",
    "C75_first_exact"
   ],
   "note": ""
  },
  {
   "property": "C76",
   "status": "proved",
   "theorems": [
    "C76_identity",
    "C76_identity_named",
    "C76_identity_mvm"
   ],
   "note": ""
  },
  {
   "property": "C77",
   "status": "proved",
   "theorems": [
    "C77_narrower_window",
    "C77_wide_enough_band",
    "C77_raised_elsewhere"
   ],
   "note": ""
  },
  {
   "property": "C78",
   "status": "proved",
   "theorems": [
    "C78_earlier_rows",
    "C78_abandon",
    "C78_abandon_named",
    "C78_along",
    "C78_along_named"
   ],
   "note": ""
  },
  {
   "property": "C79",
   "status": "proved",
   "theorems": [
    "C79_default_call",
    "C79_default_found",
    "C79_default_found_fma"
   ],
   "note": ""
  },
  {
   "property": "C80",
   "status": "proved",
   "theorems": [
    "C80_costs_irrelevant",
    "C80_more_admitted",
    "C80_wider_band",
    "C80_larger_elasticity",
    "C80_transposed"
   ],
   "note": ""
  },
  {
   "property": "C81",
   "status": "proved",
   "theorems": [
    "C81_self_test",
    "C81_empty"
   ],
   "note": ""
  },
  {
   "property": "C82",
   "status": "proved",
   "theorems": [
    "C82_factor_closed_end",
    "C82_factor_open_end",
    "C82_factor_named",
    "C82_factor_named_open"
   ],
   "note": ""
  },
  {
   "property": "C83",
   "status": "proved",
   "theorems": [
    "C83_search",
    "C83_closed_end",
    "C83_found",
    "C83_found_named",
    "C83_found_mvm",
    "C83_zero_occurs",
    "C83_exact"
   ],
   "note": ""
  },
  {
   "property": "C84",
   "status": "proved",
   "theorems": [
    "C84_length",
    "C84_length_named",
    "C84_length_mvm",
    "C84_all_matched",
    "C84_all_matched_named"
   ],
   "note": ""
  },
  {
   "property": "C85",
   "status": "proved",
   "theorems": [
    "C85_value",
    "C85_special",
    "C85_close",
    "C85_order",
    "C85_exact",
    "C85_zero",
    "C85_command_line",
    "C85_patterns",
    "C85_layout",
    "C85_zero_text",
    "C85_same",
    "C85_width"
   ],
   "note": ""
  },
  {
   "property": "C86",
   "status": "proved",
   "theorems": [
    "C86_result",
    "C86_text",
    "C86_T",
    "C86_count"
   ],
   "note": ""
  },
  {
   "property": "C87",
   "status": "proved",
   "theorems": [
    "C87_more_closed_end",
    "C87_more_open_end",
    "C87_same",
    "C87_same_raise",
    "C87_any_order"
   ],
   "note": ""
  },
  {
   "property": "C88",
   "status": "proved",
   "theorems": [
    "C88_sum",
    "C88_sum_named",
    "C88_mixture"
   ],
   "note": ""
  }
 ]
}