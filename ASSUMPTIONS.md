# Output of Print Assumptions for every theorem of MANIFEST.json

Generated by tools/mk_assumptions.py. All axioms are from the standard library of Coq 8.16.1.

## Closed under the global context (17 theorems)

C15_resolves, C15_rejects, C15_lookup, C15_name_index_agree, C17_split_is_prefix, C17_split_complete, C17_nothing_after_none, C17_sizes, C24_params_setter, C24_params_setter_rejects, C24_nui_setter, C24_nui_setter_rejects, C65_corr_mat_refuted, C107_channel, C107_process_indices, C108_limits, C109_ex

## `ClassicalDedekindReals.sig_forall_dec` (8 theorems)

C24_yield_setter, C24_yield_setter_rejects, C24_exceptions, C30_start_values_error, C34_unknown_process, C43_lengths, C43_initial, C43_assignments

## `ClassicalDedekindReals.sig_forall_dec`, `FunctionalExtensionality.functional_extensionality_dep` (62 theorems)

C01_each_event_in_its_bin, C01_fill_succeeds, C01_bins_partition_the_range, C02_total_weight_in_range, C02_events_outside_change_nothing, C03_batches_1d, C03_batches_1d_unweighted, C03_order_1d, C03_batches_2d, C03_order_2d, C04_equal_width_binning, C04_invalid_binning_rejected, C04_given_edges, C04_two_dimensions, C04_two_dimensions_given_edges, C04_list_edges, C06_each_event_in_its_cell, C06_fill_succeeds, C08_fill_atomic_refuted, C08_fill1_atomic_partial, C08_fill2_atomic_partial, C13_systematic_cov_valid, C14_swap_up_down_refuted, C14_swap_up_down_partial, C14_swap_up_down_iff, C18_histograms_have_contents, C18_histograms_2d_have_contents, C42_rint, C58_pearson_value, C58_pearson_distance, C58_default_value, C58_default_distance, C58_no_uncertainty, C60_propagation_value, C63_contents_after_any_history, C63_calls_succeed, C63_scale_multiplies, C63_scale_and_fill_commute, C87_shared_refuted, C87_integers_refuted, C87_own_parameters_partial, C87_accepted, C90_arrays_refuted, C90_unchanged_partial, C90_stored_array_returned, C90_stale_refuted, C98_accepts_only_same_numbers_partial, C98_tuples_1d_partial, C98_tuples_2d_partial, C98_list_range_refuted, C98_list_bins_refuted, C105_opp_abs, C105_rint, C105_nan_to_num, C108_fill1, C108_fill2, C108_exact, C108_fill1_ex, C109_pearson, C109_pearson_exact_iff, C109_exact, C109_distance_refuted

## `ClassicalDedekindReals.sig_forall_dec`, `ClassicalDedekindReals.sig_not_dec`, `FunctionalExtensionality.functional_extensionality_dep` (96 theorems)

C04_rejections, C05_unweighted_counts, C07_projections_are_marginals, C09_from_binned_1d, C09_from_binned_2d, C10_constructed_histograms_partial, C10_binned_histograms_partial, C10_no_write_refuted, C10_fill_value, C11_cov2corr_is_correlation, C12_corr2cov_inverse_refuted, C12_corr2cov_with_std_partial, C12_corr2cov_with_variances, C18_fractions_normalised, C19_values_add_up_to_yield, C19_new_template_reproduces_histogram, C19_values_and_errors, C20_empty_template_refuted, C21_template_covariance, C21_add_cov_mat_succeeds, C22_add_cov_mat_atomic_refuted, C22_wrong_shape_rejected_partial, C22_covariances_never_fail_partial, C24_setters_accept, C25_add_variation_2d_refuted, C25_add_variation_2d_raises_TypeError, C26_variation_own_bins_refuted, C26_variation_own_bins_partial, C44_handed_to_minuit, C45_one_fixed_partial, C45_two_fixed_refuted, C49_minimizer_refuted, C50_failure, C50_exception, C50_success, C60_propagation_valid, C62_views_exist, C63_relative_errors_unchanged, C63_errors, C64_reset_restores_partial, C64_container_reset_restores_partial, C64_initial_parameters, C64_reset_restores_refuted, C64_update_gives_blocks, C66_arguments_are_copied_partial, C66_edges_are_shared_refuted, C66_counts_are_shared_refuted, C66_created_value, C69_empty_bins_refuted, C69_filled_bins_partial, C70_projections_current_partial, C70_projections_stale_refuted, C71_update_copies_refuted, C71_yields_are_copies_partial, C72_x0_and_names_partial, C72_lengths_refuted, C73_members_fit, C73_add_template, C75_wrong_length_accepted_refuted, C75_rejected_update_refuted, C81_plot_on_raises_refuted, C81_histogram_drawn_partial, C81_example, C82_stack_plot, C82_example, C83_template, C83_container, C83_negative_expectation, C83_example, C84_counts_of_wrong_length_refuted, C84_kept_as_given_partial, C85_integer_counts_refuted, C85_integer_errors_refuted, C85_floats_partial, C86_integer_errors_refuted, C86_zero_variance_refuted, C86_floats_partial, C100_template, C100_new_template, C100_container, C100_fractions, C104_minuit_stores, C104_no_matrix_refuted, C104_minuit_exception, C104_without_hesse_refuted, C104_singular_hesse_refuted, C106_isolated, C106_alone, C106_frame, C106_set_errors_copies, C106_shared_counts_refuted, C106_from_binned_data_shares_refuted, C106_half_filled_refuted, C106_wrong_counts_length, C108_from_binned, C108_sum_of_squares_refuted

## `ClassicalDedekindReals.sig_forall_dec`, `ClassicalDedekindReals.sig_not_dec`, `Classical_Prop.classic`, `FunctionalExtensionality.functional_extensionality_dep` (201 theorems)

C07_projection_in_program, C16_xlogyx_value, C16_xlogyx_small_or_nan, C16_xlogyx_zero_expectation, C16_xlogyx_negative_expectation, C23_reset_partial, C23_reset_parameters_partial, C23_reset_after_fill_refuted, C27_add_template_atomic, C27_add_template_rejected, C27_add_template_accepted_iff, C27_processes_ordered_unique, C28_same_shape_and_range_partial, C28_equally_spaced_edges_agree_partial, C28_edges_refuted, C29_define_process, C29_define_new_channel_partial, C29_define_channel_again_refuted, C30_aligned, C30_start_values_exist, C31_names_unique_partial, C31_no_underscore_partial, C31_names_collide_refuted, C32_routing_partial, C32_stale_indices_refuted, C33_update_parameters_partial, C33_stale_indices_refuted, C33_shared_template_refuted, C34_get_after_set_partial, C34_get_after_update_partial, C34_get_after_set_refuted, C35_set_yield_only_named_process, C36_nll_value, C36_views_exist, C37_zero_at_asimov, C37_nll_nonneg, C38_current_templates_partial, C38_template_added_later_refuted, C38_covariance_added_later_refuted, C39_evicted_refuted, C39_repeatable_128_partial, C39_no_side_effect, C39_repeatable_partial, C40_undefined_process_rejected, C40_adds_one_term_partial, C40_constrained_twice_refuted, C41_add_data_partial, C41_not_atomic_refuted, C42_asimov, C42_toy, C42_empty_channel_raises, C46_requests_partial, C46_scipy_requests_partial, C46_unknown_parameter, C46_mixed_identifiers_refuted, C46_scipy_refuted, C47_flag_ignored_refuted, C48_evicted_refuted, C48_no_update, C48_update, C48_update_exactly_partial, C48_update_exactly_128_partial, C49_results_are_kept, C51_schedule_independent, C51_no_side_effect, C51_scan, C52_scan_runs_partial, C52_requests_ignored_refuted, C53_parabola, C54_value, C54_likelihood_ratio_partial, C54_scipy_refuted, C54_scipy_nan_refuted, C55_other_objects_partial, C55_yield_lost_refuted, C56_experiments, C56_history, C56_before, C56_columns, C56_no_columns, C57_value, C57_pulls_partial, C57_pulls_refuted, C59_cowan_empty_bin_refuted, C59_cowan_value_partial, C59_cowan_distance_partial, C61_bin_counts_partial, C61_order_refuted, C62_value_partial, C62_empty_bin_refuted, C67_only_data, C68_linearity, C72_asimov_start_partial, C74_penalty_frozen_refuted, C74_example_refuted, C76_template_plot_partial, C76_list_edges_refuted, C77_stacked_partial, C77_two_dimensional, C77_no_template, C77_edges_refuted, C78_propagate_partial, C78_scale_partial, C78_unknown_option, C78_several_channels_refuted, C79_cells, C79_projections, C80_process_yield_errors, C88_template_added_later, C89_frozen_precision, C91_exact_sums, C91_unweighted, C91_agrees_with_reals, C91_np_sum, C92_order_refuted, C92_batches_refuted, C92_counts_close_partial, C92_errors_close_partial, C93_edges_partial, C93_increasing_partial, C93_narrow_refuted, C94_close_partial, C94_exact_refuted, C95_same_1d_partial, C95_same_2d_partial, C95_moved_partial, C95_above_refuted, C95_below_refuted, C96_values_partial, C96_total_partial, C96_new_template_partial, C96_new_template_events_partial, C96_reproduces_counts_refuted, C97_errors_close_partial, C97_errors_exact_refuted, C99_parameters_lost_refuted, C99_unknown_process_refuted, C99_other_objects_partial, C101_density, C101_probability, C101_decreasing, C101_vanishes, C101_more_dof, C101_even, C101_one_dof, C101_pearson, C101_default, C101_cowan_partial, C101_no_dof, C102_fresh, C102_fresh_channel, C102_independent, C102_value, C102_shared_template_refuted, C103_add_template, C103_add_data, C103_empty_channel_raises, C103_update_parameters, C103_values, C103_unknown_process_raises, C103_unknown_process_refuted, C105_add, C105_sub, C105_mul, C105_div, C105_division_by_minus_zero_refuted, C105_sqrt, C105_compare, C105_values, C105_log, C105_log1p, C107_reached, C110_rows_refuted, C110_all_free, C110_shape, C110_fixed_refuted, C110_scipy_zero, C110_scipy_refuted, C111_determined, C111_close_partial, C111_correlation_partial, C111_exact_powers, C111_diagonal_refuted, C111_symmetric_refuted, C111_corr2cov_partial, C112_fresh, C112_independent, C112_repeatable, C112_other_fits, C112_shared_template_interferes, C113_fresh, C113_independent, C113_experiments, C113_channels_apart, C113_results_kept, C113_linearity_interferes, C114_fresh, C114_same_objects, C114_independent, C115_data, C115_repeat

## `ClassicalDedekindReals.sig_forall_dec`, `ClassicalEpsilon.constructive_indefinite_description`, `Classical_Prop.classic`, `FunctionalExtensionality.functional_extensionality_dep` (1 theorems)

C21_inv_spec_satisfiable
