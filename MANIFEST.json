{
 "claims": [
  {
   "property": "C01",
   "status": "proved",
   "theorems": [
    "C01_q_true_faithful",
    "C01_q_true_value"
   ],
   "note": ""
  },
  {
   "property": "C02",
   "status": "proved",
   "theorems": [
    "C02_q_robust_bracket",
    "C02_q_robust_equal_iff",
    "C02_q_robust_value",
    "C02_q_robust_engines_agree"
   ],
   "note": ""
  },
  {
   "property": "C03",
   "status": "proved",
   "theorems": [
    "C03_updated_uncertainty"
   ],
   "note": ""
  },
  {
   "property": "C04",
   "status": "proved",
   "theorems": [
    "C04_factor_q_sum",
    "C04_factor_q_rounded",
    "C04_factor_q_general",
    "C04_factor_q_sum_zero_recon_refuted"
   ],
   "note": ""
  },
  {
   "property": "C05",
   "status": "proved",
   "theorems": [
    "C05_nonneg_preserved",
    "C05_positive_forever",
    "C05_zero_stays_zero"
   ],
   "note": ""
  },
  {
   "property": "C06",
   "status": "proved",
   "theorems": [
    "C06_q_non_increasing",
    "C06_q_equal_only_if_stationary",
    "C06_history_non_increasing"
   ],
   "note": ""
  },
  {
   "property": "C07",
   "status": "proved",
   "theorems": [
    "C07_ls_held_profile",
    "C07_ls_held_run",
    "C07_ws_held_profile"
   ],
   "note": ""
  },
  {
   "property": "C08",
   "status": "proved",
   "theorems": [
    "C08_exact_factorisation_fixed",
    "C08_training_stays"
   ],
   "note": ""
  },
  {
   "property": "C09",
   "status": "proved",
   "theorems": [
    "C09_relabel_and_rescale",
    "C09_q_invariant",
    "C09_whole_runs",
    "C09_whole_runs_python"
   ],
   "note": ""
  },
  {
   "property": "C10",
   "status": "proved",
   "theorems": [
    "C10_contributions_optimal",
    "C10_invertible_case"
   ],
   "note": ""
  },
  {
   "property": "C11",
   "status": "proved",
   "theorems": [
    "C11_defined_for_nonnegative_data",
    "C11_zero_pattern_kept",
    "C11_negative_data_refuted"
   ],
   "note": ""
  },
  {
   "property": "C12",
   "status": "proved",
   "theorems": [
    "C12_inverse_correct",
    "C12_inverse_complete",
    "C12_rank_check_always_errors",
    "C12_one_factor_refuted"
   ],
   "note": ""
  },
  {
   "property": "C13",
   "status": "proved",
   "theorems": [
    "C13_bounded_complete_history",
    "C13_python_history"
   ],
   "note": ""
  },
  {
   "property": "C14",
   "status": "proved",
   "theorems": [
    "C14_converged_iff",
    "C14_small_window",
    "C14_nan_never_converged",
    "C14_rising_loss_counts_as_converged"
   ],
   "note": ""
  },
  {
   "property": "C15",
   "status": "proved",
   "theorems": [
    "C15_schedule",
    "C15_delay_needs_hold"
   ],
   "note": ""
  },
  {
   "property": "C16",
   "status": "proved",
   "theorems": [
    "C16_engines_agree",
    "C16_engines_differ",
    "C16_python_index_error"
   ],
   "note": ""
  },
  {
   "property": "C17",
   "status": "proved",
   "theorems": [
    "C17_python_status_accumulates",
    "C17_compiled_status_is_last_call"
   ],
   "note": ""
  },
  {
   "property": "C18",
   "status": "proved",
   "theorems": [
    "C18_faithful_layouts",
    "C18_rowmajor_data_rearranged",
    "C18_rowmajor_ok_iff",
    "C18_rowmajor_refuted"
   ],
   "note": ""
  },
  {
   "property": "C19",
   "status": "proved",
   "theorems": [
    "C19_feed_back_rearranged",
    "C19_returned_column_major",
    "C19_feed_back_ok_iff",
    "C19_feed_back_refuted"
   ],
   "note": ""
  },
  {
   "property": "C20",
   "status": "proved",
   "theorems": [
    "C20_uncertainty_floor",
    "C20_negative_uncertainty_refuted"
   ],
   "note": ""
  },
  {
   "property": "C21",
   "status": "proved",
   "theorems": [
    "C21_profiles_positive",
    "C21_drawn_contributions_positive",
    "C21_caller_array_edited",
    "C21_integer_profile_refuted",
    "C21_update_contributions_refuted",
    "C21_kmeans_contributions_refuted",
    "C21_starting_matrices",
    "C21_given_profiles",
    "C21_one_column_prior",
    "C21_kmeans_start"
   ],
   "note": ""
  },
  {
   "property": "C22",
   "status": "proved",
   "theorems": [
    "C22_default_start_refused_exactly",
    "C22_refused_exactly",
    "C22_decision_table",
    "C22_replaced_matrices_unchecked",
    "C22_negative_feature_mean_refused"
   ],
   "note": ""
  },
  {
   "property": "C23",
   "status": "proved",
   "theorems": [
    "C23_seeded_rows_rescaled",
    "C23_bad_seed_raises",
    "C23_seed_kept_refuted"
   ],
   "note": ""
  },
  {
   "property": "C24",
   "status": "proved",
   "theorems": [
    "C24_parallel_best",
    "C24_sequential_best",
    "C24_best_is_an_index_refuted"
   ],
   "note": ""
  },
  {
   "property": "C25",
   "status": "proved",
   "theorems": [
    "C25_result_is_model_of_its_seed",
    "C25_schedule_irrelevant",
    "C25_modes_agree",
    "C25_single_nan_verbose_refuted"
   ],
   "note": ""
  },
  {
   "property": "C26",
   "status": "proved",
   "theorems": [
    "C26_sequential_uses_default_delay",
    "C26_modes_disagree"
   ],
   "note": ""
  },
  {
   "property": "C27",
   "status": "proved",
   "theorems": [
    "C27_at_most_127_models",
    "C27_state_after_overflow"
   ],
   "note": ""
  },
  {
   "property": "C28",
   "status": "proved",
   "theorems": [
    "C28_limit_decides",
    "C28_long_model_passes_refuted",
    "C28_zero_limit_ignored"
   ],
   "note": ""
  },
  {
   "property": "C29",
   "status": "proved",
   "theorems": [
    "C29_block_resample",
    "C29_two_samples_overlapping_refuted",
    "C29_single_resample"
   ],
   "note": ""
  },
  {
   "property": "C30",
   "status": "proved",
   "theorems": [
    "C30_last_block_never_drawn",
    "C30_overlapping_last_two_never_drawn",
    "C30_half_blocks_repeat_first_half",
    "C30_every_sample_drawable_refuted"
   ],
   "note": ""
  },
  {
   "property": "C31",
   "status": "proved",
   "theorems": [
    "C31_oversized_block_raises"
   ],
   "note": ""
  },
  {
   "property": "C32",
   "status": "proved",
   "theorems": [
    "C32_mapping_is_best",
    "C32_profile_mapping_is_best",
    "C32_contributions_add_nothing",
    "C32_unchanged_factor_maps_to_itself"
   ],
   "note": ""
  },
  {
   "property": "C33",
   "status": "proved",
   "theorems": [
    "C33_rows_account_for_every_run",
    "C33_mappings_are_complete",
    "C33_order_of_completion_irrelevant",
    "C33_loss_order_refuted"
   ],
   "note": ""
  },
  {
   "property": "C34",
   "status": "proved",
   "theorems": [
    "C34_statistics_zero_small_entries",
    "C34_display_history",
    "C34_display_read_only_refuted"
   ],
   "note": ""
  },
  {
   "property": "C35",
   "status": "proved",
   "theorems": [
    "C35_increase_in_tolerance",
    "C35_decrease_in_tolerance",
    "C35_ranges_bracket_base"
   ],
   "note": ""
  },
  {
   "property": "C36",
   "status": "proved",
   "theorems": [
    "C36_increase_budget",
    "C36_decrease_budget",
    "C36_max_search_refuted"
   ],
   "note": ""
  },
  {
   "property": "C37",
   "status": "proved",
   "theorems": [
    "C37_increase_succeeds",
    "C37_decrease_succeeds",
    "C37_model_loss",
    "C37_model_loss_decrease",
    "C37_unreachable_target"
   ],
   "note": ""
  },
  {
   "property": "C38",
   "status": "proved",
   "theorems": [
    "C38_sequential_table",
    "C38_second_run_doubles",
    "C38_parallel_table",
    "C38_swaps_bounded",
    "C38_parallel_column_is_factor_refuted"
   ],
   "note": ""
  },
  {
   "property": "C39",
   "status": "proved",
   "theorems": [
    "C39_labels_reversed",
    "C39_row_under_its_own_label_refuted"
   ],
   "note": ""
  },
  {
   "property": "C40",
   "status": "proved",
   "theorems": [
    "C40_compiled_ranges",
    "C40_last_run_ignored",
    "C40_lower_bounds_ignored",
    "C40_min_mean_max",
    "C40_ranges_cover_all_runs_refuted",
    "C40_only_the_first_finished_matters",
    "C40_order_independent_refuted",
    "C40_swap_totals",
    "C40_runs_with_swaps",
    "C40_fit_swaps"
   ],
   "note": ""
  },
  {
   "property": "C41",
   "status": "proved",
   "theorems": [
    "C41_add",
    "C41_remove",
    "C41_add_then_remove",
    "C41_one_constraint_per_element",
    "C41_sample_factor_index",
    "C41_accepted_constraints_are_applicable_refuted"
   ],
   "note": ""
  },
  {
   "property": "C42",
   "status": "proved",
   "theorems": [
    "C42_constrained_cells",
    "C42_limits_met_iff",
    "C42_above_maximum_moves_away",
    "C42_limits_enforced_refuted"
   ],
   "note": ""
  },
  {
   "property": "C43",
   "status": "proved",
   "theorems": [
    "C43_pull_down",
    "C43_pull_down_within_budget_refuted",
    "C43_pull_up",
    "C43_pull_up_brackets_limit",
    "C43_pull_up_small_limit_no_effect",
    "C43_pull_to",
    "C43_pull_to_stops",
    "C43_pull_to_walks_away",
    "C43_pull_to_within_budget_refuted"
   ],
   "note": ""
  },
  {
   "property": "C44",
   "status": "proved",
   "theorems": [
    "C44_test_error_covers_all_cells",
    "C44_train_error",
    "C44_test_error_is_held_out_error_refuted"
   ],
   "note": ""
  },
  {
   "property": "C45",
   "status": "proved",
   "theorems": [
    "C45_completion_order_irrelevant",
    "C45_column_entries",
    "C45_q_columns",
    "C45_estimate_minimises",
    "C45_missing_factor_count",
    "C45_unsampled_count_in_run",
    "C45_exact_fit_is_skipped",
    "C45_best_fit_chosen_refuted",
    "C45_single_candidate_raises",
    "C45_all_exact_fits"
   ],
   "note": ""
  },
  {
   "property": "C46",
   "status": "proved",
   "theorems": [
    "C46_processed_data",
    "C46_set_category_answer",
    "C46_history",
    "C46_unknown_feature_accepted_then_raises",
    "C46_loading_marks_everything_strong"
   ],
   "note": ""
  },
  {
   "property": "C47",
   "status": "proved",
   "theorems": [
    "C47_row_filter",
    "C47_no_missing_values_refuted"
   ],
   "note": ""
  },
  {
   "property": "C48",
   "status": "proved",
   "theorems": [
    "C48_split_is_a_partition",
    "C48_missing_location_raises"
   ],
   "note": ""
  },
  {
   "property": "C49",
   "status": "proved",
   "theorems": [
    "C49_kernel",
    "C49_lagged_matrix",
    "C49_selected_lag",
    "C49_cap",
    "C49_block_lengths",
    "C49_range",
    "C49_unit_free",
    "C49_constant_series_raises",
    "C49_block_size",
    "C49_block_size_positive_refuted"
   ],
   "note": ""
  },
  {
   "property": "C50",
   "status": "proved",
   "theorems": [
    "C50_swap_reported",
    "C50_rescaled_not_swapped",
    "C50_permutation_reported",
    "C50_mirror_is_swap_refuted",
    "C50_constant_row_never_reported"
   ],
   "note": ""
  },
  {
   "property": "C51",
   "status": "proved",
   "theorems": [
    "C51_number_of_processes",
    "C51_default_is_all_but_one_refuted"
   ],
   "note": ""
  },
  {
   "property": "C52",
   "status": "proved",
   "theorems": [
    "C52_reported_rmse",
    "C52_correct_for_196_samples",
    "C52_wrong_otherwise",
    "C52_rmse_correct_refuted",
    "C52_moments"
   ],
   "note": ""
  },
  {
   "property": "C53",
   "status": "proved",
   "theorems": [
    "C53_shares",
    "C53_composition",
    "C53_contributions",
    "C53_gspace_average_one_refuted",
    "C53_bars",
    "C53_factors_add_up",
    "C53_surface_adds_to_whole_refuted",
    "C53_pie",
    "C53_threshold_above_50_rejected_refuted"
   ],
   "note": ""
  },
  {
   "property": "C54",
   "status": "proved",
   "theorems": [
    "C54_positive",
    "C54_positive_without_side_condition_refuted",
    "C54_outliers",
    "C54_noise",
    "C54_uncertainty"
   ],
   "note": ""
  },
  {
   "property": "C55",
   "status": "proved",
   "theorems": [
    "C55_arrangements",
    "C55_failed_models",
    "C55_single_processor",
    "C55_best",
    "C55_recovers_base",
    "C55_printed_base_Q",
    "C55_printed_base_Q_is_Q_refuted"
   ],
   "note": ""
  },
  {
   "property": "C56",
   "status": "proved",
   "theorems": [
    "C56_table",
    "C56_add",
    "C56_first",
    "C56_add_fails",
    "C56_partition",
    "C56_never_fails",
    "C56_batch",
    "C56_model_count",
    "C56_percentages_refuted",
    "C56_threshold_with_all_members_refuted",
    "C56_scaled_copy"
   ],
   "note": ""
  },
  {
   "property": "C57",
   "status": "proved",
   "theorems": [
    "C57_perturb",
    "C57_percent_has_no_effect",
    "C57_percentage_respected_refuted",
    "C57_edge_cases"
   ],
   "note": ""
  },
  {
   "property": "C58",
   "status": "proved",
   "theorems": [
    "C58_refused",
    "C58_pickle",
    "C58_bootstrap_returns_path_refuted",
    "C58_text",
    "C58_text_default_fails",
    "C58_text_default_works_refuted",
    "C58_batch_models",
    "C58_batch_text_default_fails",
    "C58_bsdisp_text",
    "C58_bsdisp_returned_path_loads_refuted",
    "C58_bsdisp_metadata_kept_refuted",
    "C58_constrained",
    "C58_constrained_loads_itself_refuted",
    "C58_simulator",
    "C58_load",
    "C58_not_a_directory",
    "C58_name_taken"
   ],
   "note": ""
  },
  {
   "property": "C59",
   "status": "proved",
   "theorems": [
    "C59_zero_sample_breaks",
    "C59_zero_feature_breaks",
    "C59_positive_start_never_breaks",
    "C59_zero_sample_runs"
   ],
   "note": ""
  },
  {
   "property": "C60",
   "status": "proved",
   "theorems": [
    "C60_python_result",
    "C60_ls_nmf_always_converges",
    "C60_python_ls_nmf_always_converges"
   ],
   "note": ""
  },
  {
   "property": "C61",
   "status": "proved",
   "theorems": [
    "C61_completed_event_once_last"
   ],
   "note": ""
  },
  {
   "property": "C62",
   "status": "proved",
   "theorems": [
    "C62_q_non_increasing_if_contributions_nonneg",
    "C62_q_may_rise_refuted"
   ],
   "note": ""
  },
  {
   "property": "C63",
   "status": "proved",
   "theorems": [
    "C63_at_most_127_runs"
   ],
   "note": ""
  },
  {
   "property": "C64",
   "status": "proved",
   "theorems": [
    "C64_parallel_model_number",
    "C64_parallel_limit"
   ],
   "note": ""
  },
  {
   "property": "C65",
   "status": "proved",
   "theorems": [
    "C65_bsdisp_completes",
    "C65_parallel_mode_works_refuted"
   ],
   "note": ""
  },
  {
   "property": "C66",
   "status": "proved",
   "theorems": [
    "C66_system",
    "C66_other_elements_keep",
    "C66_exact_solution_misses_the_equation",
    "C66_equation_is_the_target_refuted",
    "C66_repeated_element_refuted",
    "C66_reported_evaluation",
    "C66_reported_sample_element_refuted"
   ],
   "note": ""
  },
  {
   "property": "C67",
   "status": "proved",
   "theorems": [
    "C67_expression_budget",
    "C67_limit_met"
   ],
   "note": ""
  },
  {
   "property": "C68",
   "status": "proved",
   "theorems": [
    "C68_training_loop",
    "C68_nothing_to_train",
    "C68_nan_never_converges",
    "C68_zero_window_raises",
    "C68_plot_main",
    "C68_plot_main_shows_the_sum_refuted"
   ],
   "note": ""
  },
  {
   "property": "C69",
   "status": "proved",
   "theorems": [
    "C69_set_to_zero_stays_zero",
    "C69_nonnegative",
    "C69_zeroing_only_contribution_breaks",
    "C69_base_value_kept_refuted"
   ],
   "note": ""
  },
  {
   "property": "C70",
   "status": "proved",
   "theorems": [
    "C70_qaux_nonnegative_zero_iff",
    "C70_target_reached",
    "C70_target_reached_means_zero_refuted"
   ],
   "note": ""
  },
  {
   "property": "C71",
   "status": "proved",
   "theorems": [
    "C71_delta_column",
    "C71_ratio_column"
   ],
   "note": ""
  },
  {
   "property": "C72",
   "status": "proved",
   "theorems": [
    "C72_merge_result",
    "C72_merged_data_cannot_be_processed",
    "C72_second_merge_refused"
   ],
   "note": ""
  },
  {
   "property": "C73",
   "status": "proved",
   "theorems": [
    "C73_zeros_stay_zero",
    "C73_processed_data_positive_refuted"
   ],
   "note": ""
  },
  {
   "property": "C74",
   "status": "proved",
   "theorems": [
    "C74_signal_to_noise",
    "C74_mean_over_observed_refuted"
   ],
   "note": ""
  },
  {
   "property": "C75",
   "status": "proved",
   "theorems": [
    "C75_time_step",
    "C75_step_is_smallest_difference_refuted"
   ],
   "note": ""
  },
  {
   "property": "C76",
   "status": "proved",
   "theorems": [
    "C76_labels",
    "C76_residuals_without_handler",
    "C76_best_model_shown_refuted"
   ],
   "note": ""
  },
  {
   "property": "C77",
   "status": "proved",
   "theorems": [
    "C77_regression",
    "C77_perfect_model",
    "C77_se_zero_iff",
    "C77_se_measures_fit_refuted",
    "C77_equal_predictions",
    "C77_anderson",
    "C77_yes_no",
    "C77_feature_choice",
    "C77_residual_rows"
   ],
   "note": ""
  },
  {
   "property": "C78",
   "status": "proved",
   "theorems": [
    "C78_update_succeeds",
    "C78_update_effect",
    "C78_uniform_respects_minimum_refuted",
    "C78_curve_shapes"
   ],
   "note": ""
  },
  {
   "property": "C79",
   "status": "proved",
   "theorems": [
    "C79_profiles_positive",
    "C79_random_profiles",
    "C79_one_factor_raises",
    "C79_custom_profiles",
    "C79_time_steps",
    "C79_plot_model",
    "C79_selected_model_plotted_refuted"
   ],
   "note": ""
  },
  {
   "property": "C80",
   "status": "proved",
   "theorems": [
    "C80_mapping_direction",
    "C80_nan_wins",
    "C80_reordered_model",
    "C80_same_factors_match_refuted",
    "C80_ambiguous",
    "C80_emc_is_profile_correlation",
    "C80_emc_undefined",
    "C80_corr_reordered_rescaled"
   ],
   "note": ""
  },
  {
   "property": "C81",
   "status": "proved",
   "theorems": [
    "C81_never_loads",
    "C81_which_error",
    "C81_well_formed_files_load_refuted"
   ],
   "note": ""
  },
  {
   "property": "C82",
   "status": "proved",
   "theorems": [
    "C82_profile_only_reversed",
    "C82_compare_entry",
    "C82_finds_itself_refuted",
    "C82_check_matrix"
   ],
   "note": ""
  },
  {
   "property": "C83",
   "status": "proved",
   "theorems": [
    "C83_kept_iff_plain",
    "C83_other_objects_unchanged_refuted",
    "C83_bootstrap_results",
    "C83_models_lost",
    "C83_results_hold_models_refuted"
   ],
   "note": ""
  },
  {
   "property": "C84",
   "status": "proved",
   "theorems": [
    "C84_entries_and_losses_nonneg",
    "C84_python_entries_and_losses_nonneg",
    "C84_weights_nonneg",
    "C84_zero_entries_locked",
    "C84_positive_stays_positive_refuted",
    "C84_python_zero_entries_locked"
   ],
   "note": ""
  },
  {
   "property": "C85",
   "status": "proved",
   "theorems": [
    "C85_nan_is_permanent",
    "C85_python_stops_at_nan",
    "C85_unweighted_sample",
    "C85_unweighted_feature",
    "C85_large_uncertainty_has_zero_weight",
    "C85_python_unweighted"
   ],
   "note": ""
  },
  {
   "property": "C86",
   "status": "proved",
   "theorems": [
    "C86_tolerance_below_spacing",
    "C86_default_tolerance",
    "C86_python_tolerance_below_spacing"
   ],
   "note": ""
  },
  {
   "property": "C87",
   "status": "proved",
   "theorems": [
    "C87_converges_or_nan",
    "C87_python_converges_or_nan"
   ],
   "note": ""
  },
  {
   "property": "C88",
   "status": "proved",
   "theorems": [
    "C88_summation_accuracy",
    "C88_loss_accuracy",
    "C88_monotone_refuted"
   ],
   "note": ""
  },
  {
   "property": "C89",
   "status": "proved",
   "theorems": [
    "C89_update_values",
    "C89_ws_step_refuted",
    "C89_loss_always_fails",
    "C89_gpu_training_always_fails",
    "C89_only_with_the_gpu",
    "C89_ls_update_shapes",
    "C89_ws_update_shapes",
    "C89_gpu_batch_fails"
   ],
   "note": ""
  },
  {
   "property": "C90",
   "status": "proved",
   "theorems": [
    "C90_ls_zero_iterations",
    "C90_ws_zero_iterations",
    "C90_ws_unchanged_refuted"
   ],
   "note": ""
  },
  {
   "property": "C91",
   "status": "proved",
   "theorems": [
    "C91_run_then_analyse",
    "C91_relative_saves_nothing",
    "C91_setup_keeps_directory",
    "C91_two_directories",
    "C91_solution_saved_refuted"
   ],
   "note": ""
  },
  {
   "property": "C92",
   "status": "proved",
   "theorems": [
    "C92_text_switches",
    "C92_false_switches_off_refuted",
    "C92_data_section",
    "C92_default_index_is_a_position_refuted",
    "C92_run_needs_data"
   ],
   "note": ""
  },
  {
   "property": "C93",
   "status": "proved",
   "theorems": [
    "C93_needs_all_three",
    "C93_bootstrap_never_shown",
    "C93_one_method_refuted"
   ],
   "note": ""
  },
  {
   "property": "C94",
   "status": "proved",
   "theorems": [
    "C94_no_method",
    "C94_disp",
    "C94_boot",
    "C94_typed_commands",
    "C94_bsdisp_without_bs_fails",
    "C94_bsdisp_parallel_fails",
    "C94_bsdisp_with_bs",
    "C94_bsdisp_section_ignored",
    "C94_constrained_never_runs",
    "C94_missing_bootstrap_file",
    "C94_bsdisp_alone_refuted",
    "C94_own_settings_refuted"
   ],
   "note": ""
  },
  {
   "property": "C95",
   "status": "proved",
   "theorems": [
    "C95_constraints_applied",
    "C95_expressions_left_out",
    "C95_settings",
    "C95_run_then_analyse",
    "C95_never_shown",
    "C95_analysis_works_refuted"
   ],
   "note": ""
  },
  {
   "property": "C96",
   "status": "proved",
   "theorems": [
    "C96_run_uses_simulator",
    "C96_simulator_configured_once",
    "C96_model_selection",
    "C96_factor_numbers",
    "C96_input_timeseries_fails",
    "C96_simulator_reconfigured_refuted",
    "C96_default_factor_refuted"
   ],
   "note": ""
  },
  {
   "property": "C97",
   "status": "proved",
   "theorems": [
    "C97_loaded_rows",
    "C97_accepted_iff",
    "C97_rejected_how",
    "C97_same_labels",
    "C97_matched_by_label_refuted"
   ],
   "note": ""
  },
  {
   "property": "C98",
   "status": "proved",
   "theorems": [
    "C98_column_iff",
    "C98_distinct",
    "C98_repeated_value",
    "C98_constructor",
    "C98_no_plot_data",
    "C98_feature_choice",
    "C98_last_feature_refuted",
    "C98_large_data_refuted",
    "C98_other_feature_refuted"
   ],
   "note": ""
  },
  {
   "property": "C99",
   "status": "proved",
   "theorems": [
    "C99_when_shown",
    "C99_profile_boxes",
    "C99_contribution_boxes",
    "C99_relabelled_run",
    "C99_distributions_follow_mapping_refuted"
   ],
   "note": ""
  },
  {
   "property": "C100",
   "status": "proved",
   "theorems": [
    "C100_displacement_plots",
    "C100_markers_total",
    "C100_bsdisp_plots",
    "C100_which_dQ",
    "C100_bsdisp_default_refuted",
    "C100_summary_when",
    "C100_summary_contents",
    "C100_base_inside_bs_bar_refuted",
    "C100_summary_shows_defaults_refuted"
   ],
   "note": ""
  },
  {
   "property": "C101",
   "status": "proved",
   "theorems": [
    "C101_row",
    "C101_reported_number",
    "C101_bsdisp_numbers",
    "C101_largest_decrease_refuted"
   ],
   "note": ""
  },
  {
   "property": "C102",
   "status": "proved",
   "theorems": [
    "C102_robust_loss_bounded",
    "C102_training_lowers_robust_refuted"
   ],
   "note": ""
  },
  {
   "property": "C103",
   "status": "proved",
   "theorems": [
    "C103_stalled_run_is_blockwise_optimal",
    "C103_twin_factors_stay_twins",
    "C103_stalled_run_is_best_refuted",
    "C103_zero_entries_refuted"
   ],
   "note": ""
  },
  {
   "property": "C104",
   "status": "proved",
   "theorems": [
    "C104_fit_moves_with_the_loss",
    "C104_converged_means_settled",
    "C104_python_converged_means_settled"
   ],
   "note": ""
  },
  {
   "property": "C105",
   "status": "proved",
   "theorems": [
    "C105_profile",
    "C105_all_factors",
    "C105_needs_model_number",
    "C105_other_factor_plots",
    "C105_out_of_range",
    "C105_three_d",
    "C105_surface",
    "C105_composition",
    "C105_factor_list_refuted",
    "C105_both_refuted",
    "C105_feature_surface_refuted"
   ],
   "note": ""
  },
  {
   "property": "C106",
   "status": "proved",
   "theorems": [
    "C106_lines",
    "C106_series",
    "C106_estimates_of_first_plot",
    "C106_current_estimate_refuted"
   ],
   "note": ""
  },
  {
   "property": "C107",
   "status": "proved",
   "theorems": [
    "C107_rotation_same_fit",
    "C107_rotations_of_a_stalled_run",
    "C107_positive_solutions_are_never_unique"
   ],
   "note": ""
  },
  {
   "property": "C108",
   "status": "proved",
   "theorems": [
    "C108_scale_is_kept",
    "C108_any_share",
    "C108_start_decides_share",
    "C108_share_is_of_the_mass_refuted"
   ],
   "note": ""
  },
  {
   "property": "C109",
   "status": "proved",
   "theorems": [
    "C109_default_run"
   ],
   "note": ""
  },
  {
   "property": "C110",
   "status": "proved",
   "theorems": [
    "C110_engine_and_report",
    "C110_report_is_last_of_history_refuted",
    "C110_training_never_worsens_refuted",
    "C110_python_engine"
   ],
   "note": ""
  },
  {
   "property": "C111",
   "status": "proved",
   "theorems": [
    "C111_train_again",
    "C111_held_profiles_stay_refuted"
   ],
   "note": ""
  },
  {
   "property": "C112",
   "status": "proved",
   "theorems": [
    "C112_documented_form",
    "C112_leading_minus_refuted",
    "C112_terms_are_tokens",
    "C112_spaces_raise",
    "C112_no_parentheses",
    "C112_incomplete_raises",
    "C112_one_unknown_per_label",
    "C112_same_system",
    "C112_one_unknown_per_cell_refuted",
    "C112_numbers_read",
    "C112_whole_numbers"
   ],
   "note": ""
  },
  {
   "property": "C113",
   "status": "proved",
   "theorems": [
    "C113_expression_list",
    "C113_which_run",
    "C113_constraint_table",
    "C113_expression_table",
    "C113_expression_table_raises",
    "C113_constraints_of_the_run_refuted",
    "C113_expression_table_current_refuted",
    "C113_one_run_refuted"
   ],
   "note": ""
  },
  {
   "property": "C114",
   "status": "proved",
   "theorems": [
    "C114_profile_contributions",
    "C114_profile_index_error",
    "C114_unchecked_number",
    "C114_untrained",
    "C114_highlight_refuted",
    "C114_fingerprints",
    "C114_any_number_of_factors_refuted",
    "C114_g_space",
    "C114_g_space_needs_numbers",
    "C114_g_space_titles_refuted",
    "C114_g_space_average_refuted",
    "C114_factor_contributions"
   ],
   "note": ""
  },
  {
   "property": "C115",
   "status": "proved",
   "theorems": [
    "C115_profile_step",
    "C115_contribution_step",
    "C115_rust_fit_growth",
    "C115_python_fit_growth"
   ],
   "note": ""
  },
  {
   "property": "C116",
   "status": "proved",
   "theorems": [
    "C116_engine_and_report",
    "C116_start_contributions_ignored",
    "C116_held_profiles",
    "C116_default_run",
    "C116_default_start_refused",
    "C116_python_engine_refuted"
   ],
   "note": ""
  },
  {
   "property": "C117",
   "status": "proved",
   "theorems": [
    "C117_every_report_delivered",
    "C117_order_at_any_time",
    "C117_train_returns",
    "C117_completed_once_per_model",
    "C117_sequential_failure",
    "C117_failing_batch_refuted",
    "C117_callback_exception_refuted",
    "C117_unpicklable_callback_refuted"
   ],
   "note": ""
  },
  {
   "property": "C118",
   "status": "proved",
   "theorems": [
    "C118_robust_at_most_true",
    "C118_equal_without_outliers",
    "C118_same_cells",
    "C118_accuracy",
    "C118_compiled_nearly_at_most",
    "C118_compiled_order_refuted",
    "C118_overflowing_outlier_refuted",
    "C118_infinite_residual_refuted"
   ],
   "note": ""
  },
  {
   "property": "C119",
   "status": "proved",
   "theorems": [
    "C119_never_created",
    "C119_installed_package_suffices_refuted",
    "C119_default_fails",
    "C119_default_works_refuted",
    "C119_when_it_works",
    "C119_mean",
    "C119_other_calls"
   ],
   "note": ""
  },
  {
   "property": "C120",
   "status": "proved",
   "theorems": [
    "C120_fingerprints",
    "C120_stacks_reach_100",
    "C120_pies",
    "C120_list_of_features_refuted",
    "C120_pies_matched_refuted",
    "C120_factor_profiles",
    "C120_any_number_of_factors_refuted",
    "C120_parts",
    "C120_all_features",
    "C120_parts_add_up",
    "C120_curves_by_name_refuted",
    "C120_named_feature",
    "C120_same_fallback_refuted",
    "C120_daily_means",
    "C120_reconstructions",
    "C120_residual_table",
    "C120_strictly_above_refuted"
   ],
   "note": ""
  },
  {
   "property": "C121",
   "status": "proved",
   "theorems": [
    "C121_bootstrap_run",
    "C121_run_improves",
    "C121_unseen_feature_breaks_every_run",
    "C121_whole_bootstrap",
    "C121_base_profiles_kept_refuted"
   ],
   "note": ""
  },
  {
   "property": "C122",
   "status": "proved",
   "theorems": [
    "C122_displaced_refit",
    "C122_where_the_displacement_lands",
    "C122_refit_improves",
    "C122_undisplaced_is_not_a_swap_refuted"
   ],
   "note": ""
  },
  {
   "property": "C123",
   "status": "proved",
   "theorems": [
    "C123_perturbed_run",
    "C123_unperturbed_model_unchanged_refuted"
   ],
   "note": ""
  },
  {
   "property": "C124",
   "status": "proved",
   "theorems": [
    "C124_batch_members",
    "C124_best_of_batch",
    "C124_larger_batches_fail",
    "C124_best_at_most_every_start_refuted"
   ],
   "note": ""
  },
  {
   "property": "C125",
   "status": "proved",
   "theorems": [
    "C125_profiles_never_negative",
    "C125_python_profiles_never_negative",
    "C125_nonneg_data",
    "C125_zero_profiles_locked",
    "C125_one_nan_takes_all",
    "C125_one_bad_contribution_takes_all",
    "C125_nan_is_permanent",
    "C125_nan_data",
    "C125_split_is_exact",
    "C125_profile_step",
    "C125_negative_data_refuted"
   ],
   "note": ""
  },
  {
   "property": "C126",
   "status": "proved",
   "theorems": [
    "C126_compare",
    "C126_no_data",
    "C126_selected",
    "C126_selected_before_comparing",
    "C126_plot",
    "C126_profile_plot",
    "C126_recovered_truth",
    "C126_profile_plot_possible_refuted",
    "C126_plot_of_model_zero_refuted",
    "C126_selected_of_given_batch_refuted"
   ],
   "note": ""
  },
  {
   "property": "C127",
   "status": "proved",
   "theorems": [
    "C127_truth_sa",
    "C127_Q_of_truth",
    "C127_until_next_data",
    "C127_shared_contributions",
    "C127_shared_profiles",
    "C127_stays_consistent",
    "C127_consistent_program",
    "C127_custom_profiles",
    "C127_product_of_truth_refuted",
    "C127_custom_profiles_untouched_refuted",
    "C127_summary_of_truth_refuted",
    "C127_summary_averages"
   ],
   "note": ""
  },
  {
   "property": "C128",
   "status": "proved",
   "theorems": [
    "C128_compare",
    "C128_table_ranges",
    "C128_ambiguous",
    "C128_one_factor",
    "C128_failed_compare",
    "C128_method",
    "C128_multipliers",
    "C128_contributions",
    "C128_metric_figure",
    "C128_factor_figure",
    "C128_before_compare",
    "C128_reordered",
    "C128_undefined_share",
    "C128_zero_percent_means_unchanged_refuted",
    "C128_metric_labels_refuted",
    "C128_method_name_any_case_refuted"
   ],
   "note": ""
  },
  {
   "property": "C129",
   "status": "proved",
   "theorems": [
    "C129_factor_table",
    "C129_table_order",
    "C129_identical_runs",
    "C129_small_values",
    "C129_when_shown",
    "C129_q_table",
    "C129_q_table_needs_loss",
    "C129_identical_runs_within_refuted"
   ],
   "note": ""
  },
  {
   "property": "C130",
   "status": "proved",
   "theorems": [
    "C130_regular",
    "C130_profile",
    "C130_contributions",
    "C130_estimated",
    "C130_constrained_profile",
    "C130_constrained_contributions",
    "C130_feature_timeseries",
    "C130_daily_data_refuted",
    "C130_hourly_samples_shown_refuted"
   ],
   "note": ""
  },
  {
   "property": "C131",
   "status": "proved",
   "theorems": [
    "C131_scatter",
    "C131_scatter_nothing",
    "C131_heatmap",
    "C131_nothing_kept",
    "C131_ridgeline",
    "C131_ridgeline_no_features",
    "C131_one_feature_spoils",
    "C131_every_point_visible_refuted",
    "C131_ridgeline_shows_others_refuted"
   ],
   "note": ""
  },
  {
   "property": "C132",
   "status": "proved",
   "theorems": [
    "C132_reported_loss",
    "C132_no_overflow",
    "C132_choice",
    "C132_rust_fit",
    "C132_python_fit",
    "C132_zero_means_exact_refuted"
   ],
   "note": ""
  },
  {
   "property": "C133",
   "status": "proved",
   "theorems": [
    "C133_data",
    "C133_first_use",
    "C133_relative",
    "C133_unreadable",
    "C133_compare_without_batch",
    "C133_plot_before_compare",
    "C133_plot_after_compare",
    "C133_trained_on_saved_data_refuted",
    "C133_plot_shows_last_run_refuted"
   ],
   "note": ""
  },
  {
   "property": "C134",
   "status": "proved",
   "theorems": [
    "C134_one_iteration",
    "C134_gradient",
    "C134_size",
    "C134_converged_run",
    "C134_converged_run_py",
    "C134_slopes_within",
    "C134_small_gain_refuted"
   ],
   "note": ""
  },
  {
   "property": "C135",
   "status": "proved",
   "theorems": [
    "C135_limit",
    "C135_accumulation",
    "C135_limit_is_best_refuted"
   ],
   "note": ""
  },
  {
   "property": "C136",
   "status": "proved",
   "theorems": [
    "C136_rate",
    "C136_tends_to_the_best",
    "C136_run",
    "C136_run_py"
   ],
   "note": ""
  },
  {
   "property": "C137",
   "status": "proved",
   "theorems": [
    "C137_processes",
    "C137_every_machine_can_run_refuted",
    "C137_bootstrap_run",
    "C137_bootstrap_without_processes",
    "C137_second_call_repeats_refuted",
    "C137_bsdisp_calls",
    "C137_bsdisp_one_processor",
    "C137_bsdisp_cores_ignored",
    "C137_swaps_at_most_runs_refuted",
    "C137_perturbation_run",
    "C137_perturbation_one_processor"
   ],
   "note": ""
  },
  {
   "property": "C138",
   "status": "proved",
   "theorems": [
    "C138_completed_call",
    "C138_raising_call",
    "C138_no_samples",
    "C138_plot_matches_range_refuted"
   ],
   "note": ""
  },
  {
   "property": "C139",
   "status": "proved",
   "theorems": [
    "C139_pies",
    "C139_pies_need_array",
    "C139_fingerprints",
    "C139_factors",
    "C139_feature_timeseries",
    "C139_timeseries",
    "C139_histogram",
    "C139_feature_by_number",
    "C139_histogram_other_times",
    "C139_features_shown",
    "C139_pies_matched_refuted",
    "C139_stack_refuted",
    "C139_species_order_refuted"
   ],
   "note": ""
  },
  {
   "property": "C140",
   "status": "proved",
   "theorems": [
    "C140_contributions_settle",
    "C140_start_does_not_matter",
    "C140_run",
    "C140_start_does_not_matter_refuted"
   ],
   "note": ""
  },
  {
   "property": "C141",
   "status": "proved",
   "theorems": [
    "C141_limit",
    "C141_positive_data",
    "C141_zero_data_refuted",
    "C141_on_the_way_refuted"
   ],
   "note": ""
  },
  {
   "property": "C142",
   "status": "proved",
   "theorems": [
    "C142_relabel_and_rescale_samples",
    "C142_rescale_features_refuted"
   ],
   "note": ""
  },
  {
   "property": "C143",
   "status": "proved",
   "theorems": [
    "C143_repetitions_are_weights",
    "C143_repetitions_are_weights_python",
    "C143_ws_repeated_samples",
    "C143_ws_repeated_features_refuted",
    "C143_robust_loss_refuted"
   ],
   "note": ""
  },
  {
   "property": "C144",
   "status": "proved",
   "theorems": [
    "C144_split_factors",
    "C144_split_factors_python",
    "C144_twins_stay_twins",
    "C144_zero_factor_breaks",
    "C144_ws_singular"
   ],
   "note": ""
  },
  {
   "property": "C145",
   "status": "proved",
   "theorems": [
    "C145_looser_stops_earlier_ieee",
    "C145_looser_stops_earlier_ieee_python",
    "C145_looser_stops_earlier",
    "C145_looser_stops_earlier_python",
    "C145_stricter_never_worse",
    "C145_stricter_never_worse_python",
    "C145_longer_window_refuted"
   ],
   "note": ""
  },
  {
   "property": "C146",
   "status": "proved",
   "theorems": [
    "C146_uncertainty_scale",
    "C146_uncertainty_scale_python",
    "C146_robust_scale",
    "C146_same_alpha_refuted"
   ],
   "note": ""
  },
  {
   "property": "C147",
   "status": "proved",
   "theorems": [
    "C147_held_samples_apart",
    "C147_ws_held_samples_apart",
    "C147_not_held_refuted"
   ],
   "note": ""
  },
  {
   "property": "C148",
   "status": "proved",
   "theorems": [
    "C148_twins_to_the_bit",
    "C148_twins_to_the_bit_python",
    "C148_held_samples_apart",
    "C148_any_order_refuted",
    "C148_ws_twins_to_the_bit",
    "C148_ws_held_samples_apart"
   ],
   "note": ""
  },
  {
   "property": "C149",
   "status": "proved",
   "theorems": [
    "C149_bars_drawn",
    "C149_bars_apart",
    "C149_labels"
   ],
   "note": ""
  },
  {
   "property": "C150",
   "status": "proved",
   "theorems": [
    "C150_robust_mode_ignored",
    "C150_cutoff_only_reported",
    "C150_replacement_compiled",
    "C150_replacement_stays",
    "C150_robust_updates_refuted"
   ],
   "note": ""
  },
  {
   "property": "C151",
   "status": "proved",
   "theorems": [
    "C151_feature_scale_forgotten",
    "C151_feature_scale_forgotten_python",
    "C151_sample_scale_forgotten",
    "C151_sample_scale_forgotten_python",
    "C151_normalisation_of_seeds",
    "C151_whitening_unit_free",
    "C151_normalised_kmeans_unit_free",
    "C151_default_start_refuted"
   ],
   "note": ""
  },
  {
   "property": "C152",
   "status": "proved",
   "theorems": [
    "C152_scaled_back",
    "C152_switched_off",
    "C152_between",
    "C152_training",
    "C152_limit_only_reduces_refuted"
   ],
   "note": ""
  },
  {
   "property": "C153",
   "status": "proved",
   "theorems": [
    "C153_attributes",
    "C153_seeds_continue",
    "C153_report_after_success",
    "C153_report_after_failure",
    "C153_names_best_refuted",
    "C153_report_possible_refuted"
   ],
   "note": ""
  },
  {
   "property": "C154",
   "status": "proved",
   "theorems": [
    "C154_instalments_never_stop_earlier_python",
    "C154_short_calls_never_converge_python",
    "C154_instalments_never_stop_earlier",
    "C154_instalments_never_worse",
    "C154_delayed_instalments_refuted",
    "C154_one_factor_carries_on"
   ],
   "note": ""
  },
  {
   "property": "C155",
   "status": "proved",
   "theorems": [
    "C155_more_models_parallel",
    "C155_more_models_sequential",
    "C155_smaller_batch_succeeds_refuted",
    "C155_best_fit_never_worse"
   ],
   "note": ""
  },
  {
   "property": "C156",
   "status": "proved",
   "theorems": [
    "C156_start_after_history",
    "C156_given_matrices_draw_nothing",
    "C156_default_start",
    "C156_repeated_starts",
    "C156_same_seed_more_factors",
    "C156_initialize_again_refuted",
    "C156_given_profiles_same_contributions_refuted",
    "C156_numbers_drawn",
    "C156_kmeans_draws"
   ],
   "note": ""
  }
 ]
}