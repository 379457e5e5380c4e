{
 "claims": [
  {
   "property": "C01",
   "status": "proved",
   "theorems": [
    "C01_encode_in_range",
    "C01_decode_encode",
    "C01_encode_injective",
    "C01_encode_decode"
   ],
   "note": ""
  },
  {
   "property": "C02",
   "status": "proved",
   "theorems": [
    "C02_get_problem",
    "C02_get_problem_out_of_range",
    "C02_out_of_range_null_refuted"
   ],
   "note": ""
  },
  {
   "property": "C03",
   "status": "proved",
   "theorems": [
    "C03_iteration",
    "C03_known_suites",
    "C03_combinations",
    "C03_order"
   ],
   "note": ""
  },
  {
   "property": "C04",
   "status": "proved",
   "theorems": [
    "C04_further_passes",
    "C04_second_pass_refuted"
   ],
   "note": ""
  },
  {
   "property": "C05",
   "status": "proved",
   "theorems": [
    "C05_selection",
    "C05_position_filter",
    "C05_dimension_filter"
   ],
   "note": ""
  },
  {
   "property": "C06",
   "status": "proved",
   "theorems": [
    "C06_instance_getter",
    "C06_instance_getter_refuted",
    "C06_instance_getter_unsafe_refuted"
   ],
   "note": ""
  },
  {
   "property": "C07",
   "status": "proved",
   "theorems": [
    "C07_by_numbers_found",
    "C07_by_numbers_missing"
   ],
   "note": ""
  },
  {
   "property": "C08",
   "status": "proved",
   "theorems": [
    "C08_dimension_options",
    "C08_instance_keys",
    "C08_first_dimension_key_refuted",
    "C08_first_instance_key_refuted"
   ],
   "note": ""
  },
  {
   "property": "C09",
   "status": "proved",
   "theorems": [
    "C09_parse_ranges",
    "C09_parse_ranges_rejects",
    "C09_denotation_exists",
    "C09_denotation_unique"
   ],
   "note": ""
  },
  {
   "property": "C10",
   "status": "proved",
   "theorems": [
    "C10_parse_ranges_safe",
    "C10_count_numbers",
    "C10_count_full_list_refuted"
   ],
   "note": ""
  },
  {
   "property": "C11",
   "status": "proved",
   "theorems": [
    "C11_strfind",
    "C11_strfind_empty"
   ],
   "note": ""
  },
  {
   "property": "C12",
   "status": "proved",
   "theorems": [
    "C12_trim_blank",
    "C12_trim",
    "C12_trim_decomposition_exists",
    "C12_trimmed_unique"
   ],
   "note": ""
  },
  {
   "property": "C13",
   "status": "proved",
   "theorems": [
    "C13_split",
    "C13_pieces_unique",
    "C13_remove",
    "C13_remove_missing"
   ],
   "note": ""
  },
  {
   "property": "C14",
   "status": "proved",
   "theorems": [
    "C14_cases",
    "C14_string_word",
    "C14_string_quoted",
    "C14_string_no_value",
    "C14_string_absent",
    "C14_values",
    "C14_values_absent",
    "C14_written",
    "C14_inside_value_refuted"
   ],
   "note": ""
  },
  {
   "property": "C15",
   "status": "proved",
   "theorems": [
    "C15_keys",
    "C15_redundant",
    "C15_warning",
    "C15_suite_keys",
    "C15_long_options_refuted",
    "C15_percent_refuted",
    "C15_last_key_refuted"
   ],
   "note": ""
  },
  {
   "property": "C16",
   "status": "proved",
   "theorems": [
    "C16_values_fit",
    "C16_value_text_exists",
    "C16_instances_overflow_refuted",
    "C16_options_overflow_refuted",
    "C16_warning_overflow_refuted"
   ],
   "note": ""
  },
  {
   "property": "C17",
   "status": "proved",
   "theorems": [
    "C17_join_path",
    "C17_join_path_error",
    "C17_join_path_complete",
    "C17_truncated_refuted"
   ],
   "note": ""
  },
  {
   "property": "C18",
   "status": "proved",
   "theorems": [
    "C18_unique_directory",
    "C18_nothing_overwritten",
    "C18_free_candidate_found",
    "C18_unique_filename",
    "C18_checked_path",
    "C18_last_candidate_refuted",
    "C18_long_name_refuted"
   ],
   "note": ""
  },
  {
   "property": "C19",
   "status": "proved",
   "theorems": [
    "C19_remove_directory",
    "C19_no_directory",
    "C19_symlink_refuted",
    "C19_long_path_refuted"
   ],
   "note": ""
  },
  {
   "property": "C20",
   "status": "proved",
   "theorems": [
    "C20_counting",
    "C20_irregular",
    "C20_total",
    "C20_layers",
    "C20_stacked"
   ],
   "note": ""
  },
  {
   "property": "C21",
   "status": "proved",
   "theorems": [
    "C21_best_observed",
    "C21_never_increases",
    "C21_layers"
   ],
   "note": ""
  },
  {
   "property": "C22",
   "status": "proved",
   "theorems": [
    "C22_final_target",
    "C22_monotone",
    "C22_never",
    "C22_infinite_best_refuted"
   ],
   "note": ""
  },
  {
   "property": "C23",
   "status": "proved",
   "theorems": [
    "C23_log_targets"
   ],
   "note": ""
  },
  {
   "property": "C24",
   "status": "proved",
   "theorems": [
    "C24_lin_targets",
    "C24_strict_improvement",
    "C24_tiny_precision_refuted"
   ],
   "note": ""
  },
  {
   "property": "C25",
   "status": "proved",
   "theorems": [
    "C25_evaluation_numbers",
    "C25_skipping_refuted"
   ],
   "note": ""
  },
  {
   "property": "C26",
   "status": "proved",
   "theorems": [
    "C26_no_effect",
    "C26_documented_refuted"
   ],
   "note": ""
  },
  {
   "property": "C27",
   "status": "proved",
   "theorems": [
    "C27_files",
    "C27_progress",
    "C27_tdat",
    "C27_recommend_only_refuted"
   ],
   "note": ""
  },
  {
   "property": "C28",
   "status": "proved",
   "theorems": [
    "C28_targets",
    "C28_linear",
    "C28_second",
    "C28_same_target_refuted"
   ],
   "note": ""
  },
  {
   "property": "C29",
   "status": "proved",
   "theorems": [
    "C29_restarts"
   ],
   "note": ""
  },
  {
   "property": "C30",
   "status": "proved",
   "theorems": [
    "C30_digit",
    "C30_satisfied",
    "C30_monotone",
    "C30_nan"
   ],
   "note": ""
  },
  {
   "property": "C31",
   "status": "proved",
   "theorems": [
    "C31_answers",
    "C31_swap",
    "C31_pareto",
    "C31_transitive",
    "C31_identical_refuted",
    "C31_cycle_refuted"
   ],
   "note": ""
  },
  {
   "property": "C32",
   "status": "proved",
   "theorems": [
    "C32_answers",
    "C32_content",
    "C32_front_members",
    "C32_front_sorted",
    "C32_extremes"
   ],
   "note": ""
  },
  {
   "property": "C33",
   "status": "proved",
   "theorems": [
    "C33_hypervolume",
    "C33_order",
    "C33_monotone",
    "C33_area_rectangle"
   ],
   "note": ""
  },
  {
   "property": "C34",
   "status": "proved",
   "theorems": [
    "C34_reading",
    "C34_order",
    "C34_no_restart_refuted"
   ],
   "note": ""
  },
  {
   "property": "C35",
   "status": "proved",
   "theorems": [
    "C35_files",
    "C35_distance",
    "C35_nearest",
    "C35_inside",
    "C35_monotone",
    "C35_reading_gap_refuted"
   ],
   "note": ""
  },
  {
   "property": "C36",
   "status": "proved",
   "theorems": [
    "C36_archive_file",
    "C36_all",
    "C36_final",
    "C36_increasing"
   ],
   "note": ""
  },
  {
   "property": "C37",
   "status": "proved",
   "theorems": [
    "C37_safe",
    "C37_leak_refuted",
    "C37_recommend_refuted"
   ],
   "note": ""
  },
  {
   "property": "C38",
   "status": "proved",
   "theorems": [
    "C38_history",
    "C38_structure",
    "C38_insert",
    "C38_delete",
    "C38_item_delete",
    "C38_search",
    "C38_search_right",
    "C38_purge",
    "C38_lists",
    "C38_comparators",
    "C38_tolerance_refuted"
   ],
   "note": ""
  },
  {
   "property": "C39",
   "status": "proved",
   "theorems": [
    "C39_stream",
    "C39_seeds",
    "C39_different",
    "C39_one_refuted",
    "C39_zero_refuted",
    "C39_legacy",
    "C39_legacy_limit",
    "C39_legacy_prefix",
    "C39_legacy_congruent",
    "C39_legacy_distinct"
   ],
   "note": ""
  },
  {
   "property": "C40",
   "status": "proved",
   "theorems": [
    "C40_xopt",
    "C40_xopt_sbox",
    "C40_grid",
    "C40_fopt",
    "C40_limit",
    "C40_shared"
   ],
   "note": ""
  },
  {
   "property": "C41",
   "status": "proved",
   "theorems": [
    "C41_check",
    "C41_set",
    "C41_stacked",
    "C41_suite_ids",
    "C41_distinct",
    "C41_across",
    "C41_documented_refuted"
   ],
   "note": ""
  },
  {
   "property": "C42",
   "status": "proved",
   "theorems": [
    "C42_none",
    "C42_safe",
    "C42_one",
    "C42_second",
    "C42_add_remove",
    "C42_remove",
    "C42_free_problem",
    "C42_free_observer",
    "C42_unobserved_refuted",
    "C42_inactive_refuted",
    "C42_other_refuted",
    "C42_freed_early_refuted"
   ],
   "note": ""
  },
  {
   "property": "C43",
   "status": "proved",
   "theorems": [
    "C43_found",
    "C43_absent",
    "C43_unknown",
    "C43_default_refuted",
    "C43_shipped"
   ],
   "note": ""
  },
  {
   "property": "C44",
   "status": "proved",
   "theorems": [
    "C44_formula",
    "C44_formula_unique",
    "C44_pairs",
    "C44_numbers"
   ],
   "note": ""
  },
  {
   "property": "C45",
   "status": "proved",
   "theorems": [
    "C45_block_sizes",
    "C45_block_sizes_none",
    "C45_block_rotation",
    "C45_permutation",
    "C45_partner",
    "C45_identity",
    "C45_largescale",
    "C45_too_many_swaps",
    "C45_range_zero_refuted",
    "C45_from_sequence",
    "C45_apply"
   ],
   "note": ""
  },
  {
   "property": "C46",
   "status": "proved",
   "theorems": [
    "C46_created",
    "C46_numbers",
    "C46_linear",
    "C46_balance",
    "C46_gradients",
    "C46_seeds_shared",
    "C46_error_refuted",
    "C46_suite_created",
    "C46_suite_numbers"
   ],
   "note": ""
  },
  {
   "property": "C47",
   "status": "proved",
   "theorems": [
    "C47_optimum",
    "C47_feasible_points",
    "C47_no_better",
    "C47_neighbourhood",
    "C47_strict_refuted"
   ],
   "note": ""
  },
  {
   "property": "C48",
   "status": "proved",
   "theorems": [
    "C48_suite",
    "C48_dimension",
    "C48_same",
    "C48_evaluation",
    "C48_distinct",
    "C48_best",
    "C48_location",
    "C48_bbob_locations",
    "C48_location_refuted",
    "C48_half_refuted"
   ],
   "note": ""
  },
  {
   "property": "C49",
   "status": "proved",
   "theorems": [
    "C49_delivered",
    "C49_optimum",
    "C49_schwefel",
    "C49_griewank_refuted"
   ],
   "note": ""
  },
  {
   "property": "C50",
   "status": "proved",
   "theorems": [
    "C50_toy",
    "C50_rw",
    "C50_rw_all",
    "C50_rw_header_refuted",
    "C50_toy_infinite_refuted"
   ],
   "note": ""
  },
  {
   "property": "C51",
   "status": "proved",
   "theorems": [
    "C51_defined",
    "C51_extremes",
    "C51_not_better",
    "C51_close",
    "C51_monotone",
    "C51_order",
    "C51_total",
    "C51_dominance",
    "C51_within",
    "C51_integers",
    "C51_integers_compare",
    "C51_overflow_refuted",
    "C51_nan",
    "C51_step"
   ],
   "note": ""
  },
  {
   "property": "C52",
   "status": "proved",
   "theorems": [
    "C52_to_int",
    "C52_negative_refuted"
   ],
   "note": ""
  },
  {
   "property": "C53",
   "status": "proved",
   "theorems": [
    "C53_penalty",
    "C53_monotone",
    "C53_size",
    "C53_seeds",
    "C53_value",
    "C53_same",
    "C53_correlated",
    "C53_above",
    "C53_target",
    "C53_suite",
    "C53_constants"
   ],
   "note": ""
  },
  {
   "property": "C54",
   "status": "proved",
   "theorems": [
    "C54_best_parameter",
    "C54_error",
    "C54_session",
    "C54_observed_later"
   ],
   "note": ""
  },
  {
   "property": "C55",
   "status": "proved",
   "theorems": [
    "C55_evaluations_only",
    "C55_without_recommendations",
    "C55_files_or_not"
   ],
   "note": ""
  },
  {
   "property": "C56",
   "status": "proved",
   "theorems": [
    "C56_known",
    "C56_new",
    "C56_dimensions",
    "C56_filter_refuted"
   ],
   "note": ""
  },
  {
   "property": "C57",
   "status": "proved",
   "theorems": [
    "C57_orthonormal",
    "C57_isometry",
    "C57_dependent",
    "C57_blocks"
   ],
   "note": ""
  },
  {
   "property": "C58",
   "status": "proved",
   "theorems": [
    "C58_settings",
    "C58_total",
    "C58_messages",
    "C58_no_observer",
    "C58_null_refuted",
    "C58_negative_refuted",
    "C58_no_value_refuted",
    "C58_folder_left_refuted",
    "C58_long_options_refuted"
   ],
   "note": ""
  },
  {
   "property": "C59",
   "status": "proved",
   "theorems": [
    "C59_definition",
    "C59_shift"
   ],
   "note": ""
  },
  {
   "property": "C60",
   "status": "proved",
   "theorems": [
    "C60_length",
    "C60_initial",
    "C60_inverses"
   ],
   "note": ""
  },
  {
   "property": "C61",
   "status": "proved",
   "theorems": [
    "C61_delivered",
    "C61_optimum",
    "C61_schwefel"
   ],
   "note": ""
  },
  {
   "property": "C62",
   "status": "proved",
   "theorems": [
    "C62_definition",
    "C62_step_refuted"
   ],
   "note": ""
  },
  {
   "property": "C63",
   "status": "proved",
   "theorems": [
    "C63_objectives",
    "C63_points",
    "C63_box",
    "C63_apart"
   ],
   "note": ""
  },
  {
   "property": "C64",
   "status": "proved",
   "theorems": [
    "C64_delivered",
    "C64_outside",
    "C64_inside",
    "C64_optimum"
   ],
   "note": ""
  },
  {
   "property": "C65",
   "status": "proved",
   "theorems": [
    "C65_delivered",
    "C65_definition",
    "C65_optimum"
   ],
   "note": ""
  },
  {
   "property": "C66",
   "status": "proved",
   "theorems": [
    "C66_files",
    "C66_total",
    "C66_kept",
    "C66_lines",
    "C66_data",
    "C66_comment",
    "C66_suites_refuted"
   ],
   "note": ""
  },
  {
   "property": "C67",
   "status": "proved",
   "theorems": [
    "C67_files",
    "C67_total",
    "C67_kept",
    "C67_lines",
    "C67_data",
    "C67_ids",
    "C67_return_refuted",
    "C67_types_refuted"
   ],
   "note": ""
  },
  {
   "property": "C68",
   "status": "proved",
   "theorems": [
    "C68_delivered",
    "C68_definition",
    "C68_inside",
    "C68_optimum",
    "C68_rounding"
   ],
   "note": ""
  },
  {
   "property": "C69",
   "status": "proved",
   "theorems": [
    "C69_points",
    "C69_apart_refuted"
   ],
   "note": ""
  },
  {
   "property": "C70",
   "status": "proved",
   "theorems": [
    "C70_delivered",
    "C70_noise_free",
    "C70_optimum",
    "C70_griewank_refuted",
    "C70_noisy",
    "C70_above",
    "C70_small_refuted",
    "C70_published",
    "C70_at_optimum"
   ],
   "note": ""
  },
  {
   "property": "C71",
   "status": "proved",
   "theorems": [
    "C71_brentq",
    "C71_terminates",
    "C71_inverse",
    "C71_functions",
    "C71_exact",
    "C71_initial",
    "C71_computed"
   ],
   "note": ""
  },
  {
   "property": "C72",
   "status": "proved",
   "theorems": [
    "C72_files",
    "C72_targets",
    "C72_tdat",
    "C72_agrees",
    "C72_tainted_refuted",
    "C72_last_refuted",
    "C72_noisy_refuted",
    "C72_coordinates_refuted"
   ],
   "note": ""
  },
  {
   "property": "C73",
   "status": "proved",
   "theorems": [
    "C73_files",
    "C73_total",
    "C73_fresh",
    "C73_kept",
    "C73_memory",
    "C73_lines",
    "C73_memory_refuted",
    "C73_seven_refuted",
    "C73_line_refuted",
    "C73_name_refuted",
    "C73_experiments_refuted"
   ],
   "note": ""
  },
  {
   "property": "C74",
   "status": "proved",
   "theorems": [
    "C74_problem_memory",
    "C74_session",
    "C74_single_objective_session",
    "C74_observing_loses_refuted",
    "C74_new_instance_loses_refuted",
    "C74_constrained_missing_name_refuted"
   ],
   "note": ""
  },
  {
   "property": "C75",
   "status": "proved",
   "theorems": [
    "C75_arguments",
    "C75_fresh",
    "C75_exactly_one_batch",
    "C75_consecutive",
    "C75_further_sweeps",
    "C75_groups",
    "C75_even",
    "C75_suite",
    "C75_experiment_in_batches",
    "C75_skipped_problem_refuted"
   ],
   "note": ""
  },
  {
   "property": "C76",
   "status": "proved",
   "theorems": [
    "C76_terminates",
    "C76_trials",
    "C76_end",
    "C76_multiplier_zero",
    "C76_multiplier_zero_refuted",
    "C76_query_refuted",
    "C76_proposals"
   ],
   "note": ""
  },
  {
   "property": "C77",
   "status": "proved",
   "theorems": [
    "C77_calls",
    "C77_observed",
    "C77_rejected",
    "C77_increasing",
    "C77_positions",
    "C77_result_recorded",
    "C77_equal_budgets_refuted"
   ],
   "note": ""
  },
  {
   "property": "C78",
   "status": "proved",
   "theorems": [
    "C78_creation",
    "C78_fits",
    "C78_contents",
    "C78_by_index",
    "C78_by_id",
    "C78_own_id",
    "C78_by_numbers",
    "C78_ids",
    "C78_iterate",
    "C78_next",
    "C78_after_free"
   ],
   "note": ""
  },
  {
   "property": "C79",
   "status": "proved",
   "theorems": [
    "C79_numbers",
    "C79_suite"
   ],
   "note": ""
  },
  {
   "property": "C80",
   "status": "proved",
   "theorems": [
    "C80_freed_once",
    "C80_kept",
    "C80_current",
    "C80_stays_finished",
    "C80_methods",
    "C80_all_raise_refuted"
   ],
   "note": ""
  },
  {
   "property": "C81",
   "status": "proved",
   "theorems": [
    "C81_text",
    "C81_settings",
    "C81_update",
    "C81_last_letter_refuted",
    "C81_cases_refuted",
    "C81_quoted"
   ],
   "note": ""
  },
  {
   "property": "C82",
   "status": "proved",
   "theorems": [
    "C82_values",
    "C82_accepted",
    "C82_rejected",
    "C82_batch",
    "C82_special",
    "C82_exact_name_refuted"
   ],
   "note": ""
  },
  {
   "property": "C83",
   "status": "proved",
   "theorems": [
    "C83_inside",
    "C83_around",
    "C83_calls",
    "C83_outside_refuted"
   ],
   "note": ""
  },
  {
   "property": "C84",
   "status": "proved",
   "theorems": [
    "C84_created",
    "C84_rejected",
    "C84_no_exception_refuted",
    "C84_vector",
    "C84_batch",
    "C84_attributes",
    "C84_short",
    "C84_next_row_refuted",
    "C84_best_parameter"
   ],
   "note": ""
  },
  {
   "property": "C85",
   "status": "proved",
   "theorems": [
    "C85_evaluations",
    "C85_best",
    "C85_objectives",
    "C85_inside",
    "C85_wrong_point_refuted",
    "C85_budget_refuted",
    "C85_nan_refuted"
   ],
   "note": ""
  },
  {
   "property": "C86",
   "status": "proved",
   "theorems": [
    "C86_count",
    "C86_one_more_refuted"
   ],
   "note": ""
  },
  {
   "property": "C87",
   "status": "proved",
   "theorems": [
    "C87_reports",
    "C87_no_runs_refuted"
   ],
   "note": ""
  },
  {
   "property": "C88",
   "status": "proved",
   "theorems": [
    "C88_loop",
    "C88_rust",
    "C88_stale_refuted",
    "C88_freed_refuted"
   ],
   "note": ""
  },
  {
   "property": "C89",
   "status": "proved",
   "theorems": [
    "C89_safe",
    "C89_no_leak",
    "C89_lifetime_refuted",
    "C89_restart_refuted"
   ],
   "note": ""
  },
  {
   "property": "C90",
   "status": "proved",
   "theorems": [
    "C90_matlab",
    "C90_rust",
    "C90_java",
    "C90_java_short_refuted",
    "C90_unconstrained_refuted"
   ],
   "note": ""
  },
  {
   "property": "C91",
   "status": "proved",
   "theorems": [
    "C91_names",
    "C91_arguments",
    "C91_unknown_refuted",
    "C91_handles",
    "C91_integers",
    "C91_integers_refuted",
    "C91_overrun"
   ],
   "note": ""
  },
  {
   "property": "C92",
   "status": "proved",
   "theorems": [
    "C92_c",
    "C92_java",
    "C92_matlab",
    "C92_rust",
    "C92_search",
    "C92_twice_refuted",
    "C92_endless_refuted",
    "C92_one_more_refuted",
    "C92_constrained_refuted"
   ],
   "note": ""
  },
  {
   "property": "C93",
   "status": "proved",
   "theorems": [
    "C93_nodes",
    "C93_finest",
    "C93_points",
    "C93_integer_refuted",
    "C93_mixed_refuted"
   ],
   "note": ""
  },
  {
   "property": "C94",
   "status": "proved",
   "theorems": [
    "C94_timing",
    "C94_accounted"
   ],
   "note": ""
  },
  {
   "property": "C95",
   "status": "proved",
   "theorems": [
    "C95_c",
    "C95_error",
    "C95_previous",
    "C95_matlab",
    "C95_long_refuted",
    "C95_folder_refuted",
    "C95_percent_refuted"
   ],
   "note": ""
  },
  {
   "property": "C96",
   "status": "proved",
   "theorems": [
    "C96_report",
    "C96_dots",
    "C96_done_first_refuted",
    "C96_second_pass_refuted"
   ],
   "note": ""
  },
  {
   "property": "C97",
   "status": "proved",
   "theorems": [
    "C97_names",
    "C97_default",
    "C97_year"
   ],
   "note": ""
  },
  {
   "property": "C98",
   "status": "proved",
   "theorems": [
    "C98_output",
    "C98_symbols",
    "C98_rows",
    "C98_texts",
    "C98_next_month_refuted"
   ],
   "note": ""
  },
  {
   "property": "C99",
   "status": "proved",
   "theorems": [
    "C99_error",
    "C99_whole",
    "C99_documentation_refuted"
   ],
   "note": ""
  }
 ]
}