# Axioms used by each theorem

Output of `Print Assumptions`, abbreviated:
F = `ClassicalDedekindReals.sig_forall_dec`, N = `ClassicalDedekindReals.sig_not_dec`,
E = `FunctionalExtensionality.functional_extensionality_dep`, C = `Classical_Prop.classic`;
"-" = closed under the global context.

| Theorem | Axioms |
|---|---|
| C01_q_true_faithful | F E |
| C01_q_true_value | F E |
| C02_q_robust_bracket | F N E |
| C02_q_robust_engines_agree | F N E |
| C02_q_robust_equal_iff | F N E |
| C02_q_robust_value | F N E |
| C03_updated_uncertainty | F N E |
| C04_factor_q_general | F E |
| C04_factor_q_rounded | F E |
| C04_factor_q_sum | F E |
| C04_factor_q_sum_zero_recon_refuted | F E |
| C05_nonneg_preserved | F E |
| C05_positive_forever | F E |
| C05_zero_stays_zero | F E |
| C06_history_non_increasing | F E |
| C06_q_equal_only_if_stationary | F E |
| C06_q_non_increasing | F E |
| C07_ls_held_profile | F E |
| C07_ls_held_run | F E |
| C07_ws_held_profile | F N E |
| C08_exact_factorisation_fixed | F E |
| C08_training_stays | F E |
| C09_q_invariant | F E |
| C09_relabel_and_rescale | F E |
| C09_whole_runs | F E |
| C09_whole_runs_python | F E |
| C100_base_inside_bs_bar_refuted | F E |
| C100_bsdisp_default_refuted | F E |
| C100_bsdisp_plots | F E |
| C100_displacement_plots | F E |
| C100_markers_total | F E |
| C100_summary_contents | F E |
| C100_summary_shows_defaults_refuted | F E |
| C100_summary_when | F E |
| C100_which_dQ | F E |
| C101_bsdisp_numbers | F E |
| C101_largest_decrease_refuted | F E |
| C101_reported_number | F E |
| C101_row | F E |
| C102_robust_loss_bounded | F N E |
| C102_training_lowers_robust_refuted | F N E |
| C103_stalled_run_is_best_refuted | F E |
| C103_stalled_run_is_blockwise_optimal | F E |
| C103_twin_factors_stay_twins | F E |
| C103_zero_entries_refuted | F E |
| C104_converged_means_settled | F N E |
| C104_fit_moves_with_the_loss | F N E |
| C104_python_converged_means_settled | F N E |
| C105_all_factors | F E |
| C105_both_refuted | F N C E |
| C105_composition | F E |
| C105_factor_list_refuted | F E |
| C105_feature_surface_refuted | F E |
| C105_needs_model_number | F E |
| C105_other_factor_plots | F E |
| C105_out_of_range | F E |
| C105_profile | F E |
| C105_surface | F E |
| C105_three_d | F N C E |
| C106_current_estimate_refuted | F E |
| C106_estimates_of_first_plot | F E |
| C106_lines | F E |
| C106_series | F E |
| C107_positive_solutions_are_never_unique | F N E |
| C107_rotation_same_fit | F N E |
| C107_rotations_of_a_stalled_run | F E |
| C108_any_share | F E |
| C108_scale_is_kept | F E |
| C108_share_is_of_the_mass_refuted | F E |
| C108_start_decides_share | F E |
| C109_default_run | F N E |
| C10_contributions_optimal | F N E |
| C10_invertible_case | F N E |
| C110_engine_and_report | F N E |
| C110_python_engine | F N E |
| C110_report_is_last_of_history_refuted | F N E |
| C110_training_never_worsens_refuted | F N E |
| C111_held_profiles_stay_refuted | F N E |
| C111_train_again | F N E |
| C112_documented_form | F E |
| C112_incomplete_raises | F |
| C112_leading_minus_refuted | F E |
| C112_no_parentheses | F |
| C112_numbers_read | - |
| C112_one_unknown_per_cell_refuted | F E |
| C112_one_unknown_per_label | - |
| C112_same_system | F E |
| C112_spaces_raise | F E |
| C112_terms_are_tokens | F E |
| C112_whole_numbers | - |
| C113_constraint_table | F E |
| C113_constraints_of_the_run_refuted | F E |
| C113_expression_list | F |
| C113_expression_table | F E |
| C113_expression_table_current_refuted | F E |
| C113_expression_table_raises | F E |
| C113_one_run_refuted | F E |
| C113_which_run | F |
| C114_any_number_of_factors_refuted | F E |
| C114_factor_contributions | F E |
| C114_fingerprints | F E |
| C114_g_space | F E |
| C114_g_space_average_refuted | F E |
| C114_g_space_needs_numbers | F E |
| C114_g_space_titles_refuted | F E |
| C114_highlight_refuted | F E |
| C114_profile_contributions | F E |
| C114_profile_index_error | F E |
| C114_unchecked_number | F E |
| C114_untrained | F E |
| C115_contribution_step | F N C E |
| C115_profile_step | F N C E |
| C115_python_fit_growth | F N C E |
| C115_rust_fit_growth | F N C E |
| C116_default_run | F N E |
| C116_default_start_refused | F N C E |
| C116_engine_and_report | F N E |
| C116_held_profiles | F N E |
| C116_python_engine_refuted | F N E |
| C116_start_contributions_ignored | F N E |
| C117_callback_exception_refuted | - |
| C117_completed_once_per_model | - |
| C117_every_report_delivered | - |
| C117_failing_batch_refuted | - |
| C117_order_at_any_time | - |
| C117_sequential_failure | - |
| C117_train_returns | - |
| C117_unpicklable_callback_refuted | - |
| C118_accuracy | F N C E |
| C118_compiled_nearly_at_most | F N C E |
| C118_compiled_order_refuted | F N C E |
| C118_equal_without_outliers | F N C E |
| C118_infinite_residual_refuted | F N C E |
| C118_overflowing_outlier_refuted | F N C E |
| C118_robust_at_most_true | F N C E |
| C118_same_cells | F N C E |
| C119_default_fails | F E |
| C119_default_works_refuted | F E |
| C119_installed_package_suffices_refuted | - |
| C119_mean | F E |
| C119_never_created | - |
| C119_other_calls | F E |
| C119_when_it_works | F E |
| C11_defined_for_nonnegative_data | F N E |
| C11_negative_data_refuted | F N E |
| C11_zero_pattern_kept | F N E |
| C120_all_features | F |
| C120_any_number_of_factors_refuted | F E |
| C120_curves_by_name_refuted | F E |
| C120_daily_means | F E |
| C120_factor_profiles | F E |
| C120_fingerprints | F E |
| C120_list_of_features_refuted | F E |
| C120_named_feature | - |
| C120_parts | F |
| C120_parts_add_up | F E |
| C120_pies | F E |
| C120_pies_matched_refuted | F E |
| C120_reconstructions | F E |
| C120_residual_table | F E |
| C120_same_fallback_refuted | F E |
| C120_stacks_reach_100 | F E |
| C120_strictly_above_refuted | F E |
| C121_base_profiles_kept_refuted | F N E |
| C121_bootstrap_run | F N E |
| C121_run_improves | F N E |
| C121_unseen_feature_breaks_every_run | F N E |
| C121_whole_bootstrap | F N E |
| C122_displaced_refit | F N E |
| C122_refit_improves | F N E |
| C122_undisplaced_is_not_a_swap_refuted | F N E |
| C122_where_the_displacement_lands | F E |
| C123_perturbed_run | F N E |
| C123_unperturbed_model_unchanged_refuted | F N E |
| C124_batch_members | F N E |
| C124_best_at_most_every_start_refuted | F N E |
| C124_best_of_batch | F N E |
| C124_larger_batches_fail | F N E |
| C125_nan_data | F N C E |
| C125_nan_is_permanent | F N C E |
| C125_negative_data_refuted | F N C E |
| C125_nonneg_data | F N C E |
| C125_one_bad_contribution_takes_all | F N C E |
| C125_one_nan_takes_all | F N C E |
| C125_profile_step | F N C E |
| C125_profiles_never_negative | F N C E |
| C125_python_profiles_never_negative | F N C E |
| C125_split_is_exact | F N C E |
| C125_zero_profiles_locked | F N C E |
| C126_compare | F E |
| C126_no_data | F E |
| C126_plot | F E |
| C126_plot_of_model_zero_refuted | F E |
| C126_profile_plot | F E |
| C126_profile_plot_possible_refuted | F E |
| C126_recovered_truth | F E |
| C126_selected | F E |
| C126_selected_before_comparing | F E |
| C126_selected_of_given_batch_refuted | F E |
| C127_Q_of_truth | F N E |
| C127_consistent_program | F N E |
| C127_custom_profiles | F N E |
| C127_custom_profiles_untouched_refuted | F N E |
| C127_product_of_truth_refuted | F N E |
| C127_shared_contributions | F N E |
| C127_shared_profiles | F N E |
| C127_stays_consistent | F N E |
| C127_summary_averages | F E |
| C127_summary_of_truth_refuted | F N E |
| C127_truth_sa | F N E |
| C127_until_next_data | F N E |
| C128_ambiguous | F N E |
| C128_before_compare | F E |
| C128_compare | F N E |
| C128_contributions | F N E |
| C128_factor_figure | F N E |
| C128_failed_compare | F N E |
| C128_method | F N E |
| C128_method_name_any_case_refuted | F N E |
| C128_metric_figure | F N E |
| C128_metric_labels_refuted | F N E |
| C128_multipliers | F N E |
| C128_one_factor | F N E |
| C128_reordered | F N E |
| C128_table_ranges | F N E |
| C128_undefined_share | F N E |
| C128_zero_percent_means_unchanged_refuted | F N E |
| C129_factor_table | F N E |
| C129_identical_runs | F N E |
| C129_identical_runs_within_refuted | F N E |
| C129_q_table | F E |
| C129_q_table_needs_loss | F E |
| C129_small_values | F N E |
| C129_table_order | F N E |
| C129_when_shown | F N E |
| C12_inverse_complete | - |
| C12_inverse_correct | - |
| C12_one_factor_refuted | - |
| C12_rank_check_always_errors | - |
| C130_constrained_contributions | F E |
| C130_constrained_profile | F E |
| C130_contributions | F E |
| C130_daily_data_refuted | F E |
| C130_estimated | F E |
| C130_feature_timeseries | F E |
| C130_hourly_samples_shown_refuted | F E |
| C130_profile | F E |
| C130_regular | - |
| C131_every_point_visible_refuted | F E |
| C131_heatmap | F N E |
| C131_nothing_kept | F N C E |
| C131_one_feature_spoils | F N C E |
| C131_ridgeline | F N C E |
| C131_ridgeline_no_features | - |
| C131_ridgeline_shows_others_refuted | F N C E |
| C131_scatter | F E |
| C131_scatter_nothing | F E |
| C132_choice | F N C E |
| C132_no_overflow | F N C E |
| C132_python_fit | F N C E |
| C132_reported_loss | F N C E |
| C132_rust_fit | F N C E |
| C132_zero_means_exact_refuted | F N C E |
| C133_compare_without_batch | F E |
| C133_data | F E |
| C133_first_use | - |
| C133_plot_after_compare | F E |
| C133_plot_before_compare | F E |
| C133_plot_shows_last_run_refuted | F E |
| C133_relative | F E |
| C133_trained_on_saved_data_refuted | F |
| C133_unreadable | F E |
| C134_converged_run | F N E |
| C134_converged_run_py | F N E |
| C134_gradient | F N E |
| C134_one_iteration | F N E |
| C134_size | F N E |
| C134_slopes_within | F N E |
| C134_small_gain_refuted | F E |
| C135_accumulation | F N E |
| C135_limit | F E |
| C135_limit_is_best_refuted | F E |
| C136_rate | F N C E |
| C136_run | F N C E |
| C136_run_py | F N C E |
| C136_tends_to_the_best | F N C E |
| C137_bootstrap_run | - |
| C137_bootstrap_without_processes | - |
| C137_bsdisp_calls | - |
| C137_bsdisp_cores_ignored | - |
| C137_bsdisp_one_processor | - |
| C137_every_machine_can_run_refuted | - |
| C137_perturbation_one_processor | - |
| C137_perturbation_run | - |
| C137_processes | - |
| C137_second_call_repeats_refuted | - |
| C137_swaps_at_most_runs_refuted | - |
| C138_completed_call | F N C E |
| C138_no_samples | F N C E |
| C138_plot_matches_range_refuted | F N C E |
| C138_raising_call | F N C E |
| C139_factors | F E |
| C139_feature_by_number | F E |
| C139_feature_timeseries | F |
| C139_features_shown | F |
| C139_fingerprints | F E |
| C139_histogram | F E |
| C139_histogram_other_times | F E |
| C139_pies | F E |
| C139_pies_matched_refuted | F E |
| C139_pies_need_array | F E |
| C139_species_order_refuted | F E |
| C139_stack_refuted | F E |
| C139_timeseries | F E |
| C13_bounded_complete_history | - |
| C13_python_history | - |
| C140_contributions_settle | F N C E |
| C140_run | F N C E |
| C140_start_does_not_matter | F N C E |
| C140_start_does_not_matter_refuted | F N C E |
| C141_limit | F N E |
| C141_on_the_way_refuted | F N E |
| C141_positive_data | F N E |
| C141_zero_data_refuted | F N E |
| C142_relabel_and_rescale_samples | F N E |
| C142_rescale_features_refuted | F N E |
| C143_repetitions_are_weights | F N E |
| C143_repetitions_are_weights_python | F N E |
| C143_robust_loss_refuted | F N E |
| C143_ws_repeated_features_refuted | F N E |
| C143_ws_repeated_samples | F N E |
| C144_split_factors | F E |
| C144_split_factors_python | F E |
| C144_twins_stay_twins | F E |
| C144_ws_singular | F E |
| C144_zero_factor_breaks | F E |
| C145_longer_window_refuted | F E |
| C145_looser_stops_earlier | - |
| C145_looser_stops_earlier_ieee | F N C E |
| C145_looser_stops_earlier_ieee_python | F N C E |
| C145_looser_stops_earlier_python | - |
| C145_stricter_never_worse | F E |
| C145_stricter_never_worse_python | F E |
| C146_robust_scale | F N E |
| C146_same_alpha_refuted | F N E |
| C146_uncertainty_scale | F E |
| C146_uncertainty_scale_python | F E |
| C147_held_samples_apart | F E |
| C147_not_held_refuted | F E |
| C147_ws_held_samples_apart | F N E |
| C148_any_order_refuted | F N C E |
| C148_held_samples_apart | F N C E |
| C148_twins_to_the_bit | F N C E |
| C148_twins_to_the_bit_python | F N C E |
| C148_ws_held_samples_apart | F N C E |
| C148_ws_twins_to_the_bit | F N C E |
| C149_bars_apart | F E |
| C149_bars_drawn | F E |
| C149_labels | F E |
| C14_converged_iff | - |
| C14_nan_never_converged | F E |
| C14_rising_loss_counts_as_converged | F E |
| C14_small_window | F E |
| C150_cutoff_only_reported | - |
| C150_replacement_compiled | - |
| C150_replacement_stays | - |
| C150_robust_mode_ignored | - |
| C150_robust_updates_refuted | F N E |
| C151_default_start_refuted | F N E |
| C151_feature_scale_forgotten | F E |
| C151_feature_scale_forgotten_python | F E |
| C151_normalisation_of_seeds | F E |
| C151_normalised_kmeans_unit_free | F N E |
| C151_sample_scale_forgotten | F E |
| C151_sample_scale_forgotten_python | F E |
| C151_whitening_unit_free | F N E |
| C152_between | F E |
| C152_limit_only_reduces_refuted | F E |
| C152_scaled_back | F E |
| C152_switched_off | F E |
| C152_training | F E |
| C153_attributes | F E |
| C153_names_best_refuted | F E |
| C153_report_after_failure | F E |
| C153_report_after_success | F E |
| C153_report_possible_refuted | F E |
| C153_seeds_continue | F E |
| C154_delayed_instalments_refuted | F E |
| C154_instalments_never_stop_earlier | - |
| C154_instalments_never_stop_earlier_python | - |
| C154_instalments_never_worse | F E |
| C154_one_factor_carries_on | F N E |
| C154_short_calls_never_converge_python | - |
| C155_best_fit_never_worse | F N E |
| C155_more_models_parallel | F E |
| C155_more_models_sequential | F E |
| C155_smaller_batch_succeeds_refuted | F E |
| C156_default_start | F N E |
| C156_given_matrices_draw_nothing | F N E |
| C156_given_profiles_same_contributions_refuted | F N E |
| C156_initialize_again_refuted | F N E |
| C156_kmeans_draws | F N E |
| C156_numbers_drawn | F N E |
| C156_repeated_starts | F N E |
| C156_same_seed_more_factors | F N E |
| C156_start_after_history | F N E |
| C15_delay_needs_hold | - |
| C15_schedule | - |
| C16_engines_agree | - |
| C16_engines_differ | - |
| C16_python_index_error | - |
| C17_compiled_status_is_last_call | - |
| C17_python_status_accumulates | - |
| C18_faithful_layouts | - |
| C18_rowmajor_data_rearranged | - |
| C18_rowmajor_ok_iff | - |
| C18_rowmajor_refuted | - |
| C19_feed_back_ok_iff | - |
| C19_feed_back_rearranged | - |
| C19_feed_back_refuted | - |
| C19_returned_column_major | - |
| C20_negative_uncertainty_refuted | F N E |
| C20_uncertainty_floor | F E |
| C21_caller_array_edited | F N E |
| C21_drawn_contributions_positive | F N E |
| C21_given_profiles | F N E |
| C21_integer_profile_refuted | F N E |
| C21_kmeans_contributions_refuted | F N E |
| C21_kmeans_start | F N E |
| C21_one_column_prior | F N E |
| C21_profiles_positive | F N E |
| C21_starting_matrices | F N E |
| C21_update_contributions_refuted | F N E |
| C22_decision_table | F N E |
| C22_default_start_refused_exactly | F N E |
| C22_negative_feature_mean_refused | F N E |
| C22_refused_exactly | F N E |
| C22_replaced_matrices_unchecked | F N E |
| C23_bad_seed_raises | F N E |
| C23_seed_kept_refuted | F N E |
| C23_seeded_rows_rescaled | F N E |
| C24_best_is_an_index_refuted | F E |
| C24_parallel_best | F E |
| C24_sequential_best | F E |
| C25_modes_agree | F E |
| C25_result_is_model_of_its_seed | F E |
| C25_schedule_irrelevant | F E |
| C25_single_nan_verbose_refuted | F E |
| C26_modes_disagree | F E |
| C26_sequential_uses_default_delay | F E |
| C27_at_most_127_models | F E |
| C27_state_after_overflow | F E |
| C28_limit_decides | F E |
| C28_long_model_passes_refuted | F E |
| C28_zero_limit_ignored | F E |
| C29_block_resample | - |
| C29_single_resample | - |
| C29_two_samples_overlapping_refuted | - |
| C30_every_sample_drawable_refuted | - |
| C30_half_blocks_repeat_first_half | - |
| C30_last_block_never_drawn | - |
| C30_overlapping_last_two_never_drawn | - |
| C31_oversized_block_raises | - |
| C32_contributions_add_nothing | F E |
| C32_mapping_is_best | F E |
| C32_profile_mapping_is_best | F E |
| C32_unchanged_factor_maps_to_itself | F E |
| C33_loss_order_refuted | - |
| C33_mappings_are_complete | F E |
| C33_order_of_completion_irrelevant | - |
| C33_rows_account_for_every_run | - |
| C34_display_history | F E |
| C34_display_read_only_refuted | F E |
| C34_statistics_zero_small_entries | F E |
| C35_decrease_in_tolerance | F E |
| C35_increase_in_tolerance | F E |
| C35_ranges_bracket_base | F E |
| C36_decrease_budget | F E |
| C36_increase_budget | F E |
| C36_max_search_refuted | F E |
| C37_decrease_succeeds | F E |
| C37_increase_succeeds | F E |
| C37_model_loss | F E |
| C37_model_loss_decrease | F E |
| C37_unreachable_target | F E |
| C38_parallel_column_is_factor_refuted | - |
| C38_parallel_table | - |
| C38_second_run_doubles | - |
| C38_sequential_table | - |
| C38_swaps_bounded | - |
| C39_labels_reversed | F E |
| C39_row_under_its_own_label_refuted | F E |
| C40_compiled_ranges | F E |
| C40_fit_swaps | - |
| C40_last_run_ignored | F E |
| C40_lower_bounds_ignored | F E |
| C40_min_mean_max | F E |
| C40_only_the_first_finished_matters | F E |
| C40_order_independent_refuted | F E |
| C40_ranges_cover_all_runs_refuted | F E |
| C40_runs_with_swaps | - |
| C40_swap_totals | - |
| C41_accepted_constraints_are_applicable_refuted | F E |
| C41_add | - |
| C41_add_then_remove | - |
| C41_one_constraint_per_element | - |
| C41_remove | - |
| C41_sample_factor_index | F E |
| C42_above_maximum_moves_away | F E |
| C42_constrained_cells | F E |
| C42_limits_enforced_refuted | F E |
| C42_limits_met_iff | F E |
| C43_pull_down | F E |
| C43_pull_down_within_budget_refuted | F E |
| C43_pull_to | F E |
| C43_pull_to_stops | F E |
| C43_pull_to_walks_away | F E |
| C43_pull_to_within_budget_refuted | F E |
| C43_pull_up | F E |
| C43_pull_up_brackets_limit | F E |
| C43_pull_up_small_limit_no_effect | F E |
| C44_test_error_covers_all_cells | F E |
| C44_test_error_is_held_out_error_refuted | F E |
| C44_train_error | F E |
| C45_all_exact_fits | F N C E |
| C45_best_fit_chosen_refuted | F N C E |
| C45_column_entries | F E |
| C45_completion_order_irrelevant | F N C E |
| C45_estimate_minimises | F N C E |
| C45_exact_fit_is_skipped | F N C E |
| C45_missing_factor_count | F N C E |
| C45_q_columns | F E |
| C45_single_candidate_raises | F N C E |
| C45_unsampled_count_in_run | F N C E |
| C46_history | F N C E |
| C46_loading_marks_everything_strong | F E |
| C46_processed_data | F N C E |
| C46_set_category_answer | - |
| C46_unknown_feature_accepted_then_raises | F N C E |
| C47_no_missing_values_refuted | F N C E |
| C47_row_filter | F N C E |
| C48_missing_location_raises | F E |
| C48_split_is_a_partition | F E |
| C49_block_lengths | F N C E |
| C49_block_size | F N C E |
| C49_block_size_positive_refuted | F N C E |
| C49_cap | F N E |
| C49_constant_series_raises | F N C E |
| C49_kernel | F E |
| C49_lagged_matrix | - |
| C49_range | F N C E |
| C49_selected_lag | F N C E |
| C49_unit_free | F N C E |
| C50_constant_row_never_reported | F E |
| C50_mirror_is_swap_refuted | F E |
| C50_permutation_reported | F E |
| C50_rescaled_not_swapped | F E |
| C50_swap_reported | F E |
| C51_default_is_all_but_one_refuted | - |
| C51_number_of_processes | - |
| C52_correct_for_196_samples | F N E |
| C52_moments | F N E |
| C52_reported_rmse | F N E |
| C52_rmse_correct_refuted | F N E |
| C52_wrong_otherwise | F N E |
| C53_bars | F E |
| C53_composition | F E |
| C53_contributions | F E |
| C53_factors_add_up | F E |
| C53_gspace_average_one_refuted | F E |
| C53_pie | F E |
| C53_shares | F E |
| C53_surface_adds_to_whole_refuted | F E |
| C53_threshold_above_50_rejected_refuted | F E |
| C54_noise | F E |
| C54_outliers | F E |
| C54_positive | F E |
| C54_positive_without_side_condition_refuted | F E |
| C54_uncertainty | F E |
| C55_arrangements | - |
| C55_best | F E |
| C55_failed_models | F E |
| C55_printed_base_Q | F E |
| C55_printed_base_Q_is_Q_refuted | F E |
| C55_recovers_base | F E |
| C55_single_processor | F E |
| C56_add | F E |
| C56_add_fails | F E |
| C56_batch | F E |
| C56_first | F E |
| C56_model_count | F E |
| C56_never_fails | F E |
| C56_partition | F E |
| C56_percentages_refuted | F E |
| C56_scaled_copy | F E |
| C56_table | F E |
| C56_threshold_with_all_members_refuted | F E |
| C57_edge_cases | F N E |
| C57_percent_has_no_effect | F N E |
| C57_percentage_respected_refuted | F N C E |
| C57_perturb | F N E |
| C58_batch_models | - |
| C58_batch_text_default_fails | - |
| C58_bootstrap_returns_path_refuted | - |
| C58_bsdisp_metadata_kept_refuted | - |
| C58_bsdisp_returned_path_loads_refuted | - |
| C58_bsdisp_text | - |
| C58_constrained | - |
| C58_constrained_loads_itself_refuted | - |
| C58_load | - |
| C58_name_taken | - |
| C58_not_a_directory | - |
| C58_pickle | - |
| C58_refused | - |
| C58_simulator | - |
| C58_text | - |
| C58_text_default_fails | - |
| C58_text_default_works_refuted | - |
| C59_positive_start_never_breaks | F E |
| C59_zero_feature_breaks | F E |
| C59_zero_sample_breaks | F E |
| C59_zero_sample_runs | F E |
| C60_ls_nmf_always_converges | F E |
| C60_python_ls_nmf_always_converges | F E |
| C60_python_result | F E |
| C61_completed_event_once_last | - |
| C62_q_may_rise_refuted | F N E |
| C62_q_non_increasing_if_contributions_nonneg | F N E |
| C63_at_most_127_runs | - |
| C64_parallel_limit | - |
| C64_parallel_model_number | - |
| C65_bsdisp_completes | - |
| C65_parallel_mode_works_refuted | - |
| C66_equation_is_the_target_refuted | F E |
| C66_exact_solution_misses_the_equation | F E |
| C66_other_elements_keep | F |
| C66_repeated_element_refuted | F E |
| C66_reported_evaluation | F E |
| C66_reported_sample_element_refuted | F E |
| C66_system | F E |
| C67_expression_budget | F E |
| C67_limit_met | F E |
| C68_nan_never_converges | F E |
| C68_nothing_to_train | - |
| C68_plot_main | - |
| C68_plot_main_shows_the_sum_refuted | F E |
| C68_training_loop | F E |
| C68_zero_window_raises | F E |
| C69_base_value_kept_refuted | F E |
| C69_nonnegative | F E |
| C69_set_to_zero_stays_zero | F E |
| C69_zeroing_only_contribution_breaks | F E |
| C70_qaux_nonnegative_zero_iff | F E |
| C70_target_reached | F E |
| C70_target_reached_means_zero_refuted | F E |
| C71_delta_column | F |
| C71_ratio_column | F E |
| C72_merge_result | E |
| C72_merged_data_cannot_be_processed | F N C E |
| C72_second_merge_refused | E |
| C73_processed_data_positive_refuted | F N C E |
| C73_zeros_stay_zero | F N C E |
| C74_mean_over_observed_refuted | F E |
| C74_signal_to_noise | F E |
| C75_step_is_smallest_difference_refuted | - |
| C75_time_step | - |
| C76_best_model_shown_refuted | - |
| C76_labels | - |
| C76_residuals_without_handler | - |
| C77_anderson | F E |
| C77_equal_predictions | F N E |
| C77_feature_choice | - |
| C77_perfect_model | F N E |
| C77_regression | F N E |
| C77_residual_rows | F E |
| C77_se_measures_fit_refuted | F N E |
| C77_se_zero_iff | F N E |
| C77_yes_no | F E |
| C78_curve_shapes | F N E |
| C78_uniform_respects_minimum_refuted | F N E |
| C78_update_effect | F N E |
| C78_update_succeeds | F N E |
| C79_custom_profiles | F E |
| C79_one_factor_raises | F E |
| C79_plot_model | - |
| C79_profiles_positive | F E |
| C79_random_profiles | F E |
| C79_selected_model_plotted_refuted | - |
| C79_time_steps | - |
| C80_ambiguous | F E |
| C80_corr_reordered_rescaled | F E |
| C80_emc_is_profile_correlation | F E |
| C80_emc_undefined | F E |
| C80_mapping_direction | F E |
| C80_nan_wins | F E |
| C80_reordered_model | F E |
| C80_same_factors_match_refuted | F E |
| C81_never_loads | - |
| C81_well_formed_files_load_refuted | - |
| C81_which_error | - |
| C82_check_matrix | F E |
| C82_compare_entry | F E |
| C82_finds_itself_refuted | F E |
| C82_profile_only_reversed | F E |
| C83_bootstrap_results | - |
| C83_kept_iff_plain | - |
| C83_models_lost | - |
| C83_other_objects_unchanged_refuted | - |
| C83_results_hold_models_refuted | - |
| C84_entries_and_losses_nonneg | F N C E |
| C84_positive_stays_positive_refuted | F N C E |
| C84_python_entries_and_losses_nonneg | F N C E |
| C84_python_zero_entries_locked | F N C E |
| C84_weights_nonneg | F N C E |
| C84_zero_entries_locked | F N C E |
| C85_large_uncertainty_has_zero_weight | F N C E |
| C85_nan_is_permanent | F N C E |
| C85_python_stops_at_nan | F N C E |
| C85_python_unweighted | F N C E |
| C85_unweighted_feature | F N C E |
| C85_unweighted_sample | F N C E |
| C86_default_tolerance | F N C E |
| C86_python_tolerance_below_spacing | F N C E |
| C86_tolerance_below_spacing | F N C E |
| C87_converges_or_nan | F N C E |
| C87_python_converges_or_nan | F N C E |
| C88_loss_accuracy | F N C E |
| C88_monotone_refuted | F N C E |
| C88_summation_accuracy | F N C E |
| C89_gpu_batch_fails | F N E |
| C89_gpu_training_always_fails | F N E |
| C89_loss_always_fails | F N E |
| C89_ls_update_shapes | F E |
| C89_only_with_the_gpu | F N E |
| C89_update_values | F N E |
| C89_ws_step_refuted | F N E |
| C89_ws_update_shapes | F N E |
| C90_ls_zero_iterations | F N E |
| C90_ws_unchanged_refuted | F N E |
| C90_ws_zero_iterations | F N E |
| C91_relative_saves_nothing | - |
| C91_run_then_analyse | - |
| C91_setup_keeps_directory | F E |
| C91_solution_saved_refuted | F E |
| C91_two_directories | F E |
| C92_data_section | - |
| C92_default_index_is_a_position_refuted | F |
| C92_false_switches_off_refuted | F |
| C92_run_needs_data | - |
| C92_text_switches | - |
| C93_bootstrap_never_shown | F E |
| C93_needs_all_three | - |
| C93_one_method_refuted | F E |
| C94_boot | - |
| C94_bsdisp_alone_refuted | F E |
| C94_bsdisp_parallel_fails | - |
| C94_bsdisp_section_ignored | - |
| C94_bsdisp_with_bs | - |
| C94_bsdisp_without_bs_fails | - |
| C94_constrained_never_runs | F E |
| C94_disp | - |
| C94_missing_bootstrap_file | - |
| C94_no_method | - |
| C94_own_settings_refuted | F E |
| C94_typed_commands | F E |
| C95_analysis_works_refuted | F E |
| C95_constraints_applied | - |
| C95_expressions_left_out | - |
| C95_never_shown | F E |
| C95_run_then_analyse | F E |
| C95_settings | F E |
| C96_default_factor_refuted | F E |
| C96_factor_numbers | - |
| C96_input_timeseries_fails | - |
| C96_model_selection | - |
| C96_run_uses_simulator | - |
| C96_simulator_configured_once | - |
| C96_simulator_reconfigured_refuted | - |
| C97_accepted_iff | F E |
| C97_loaded_rows | F E |
| C97_matched_by_label_refuted | F E |
| C97_rejected_how | F E |
| C97_same_labels | F E |
| C98_column_iff | F E |
| C98_constructor | F E |
| C98_distinct | F E |
| C98_feature_choice | - |
| C98_large_data_refuted | F E |
| C98_last_feature_refuted | - |
| C98_no_plot_data | F E |
| C98_other_feature_refuted | - |
| C98_repeated_value | F E |
| C99_contribution_boxes | F E |
| C99_distributions_follow_mapping_refuted | F E |
| C99_profile_boxes | F E |
| C99_relabelled_run | F E |
| C99_when_shown | F E |
