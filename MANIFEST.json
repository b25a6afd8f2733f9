{
 "claims": [
  {
   "property": "C01",
   "status": "proved",
   "theorems": [
    "C01_each_event_in_its_bin",
    "C01_fill_succeeds",
    "C01_bins_partition_the_range"
   ],
   "note": "All constructor calls, all fill histories. scipy's rounding of values next to the last edge is not modelled (exact comparison)."
  },
  {
   "property": "C02",
   "status": "proved",
   "theorems": [
    "C02_total_weight_in_range",
    "C02_events_outside_change_nothing"
   ],
   "note": ""
  },
  {
   "property": "C03",
   "status": "proved",
   "theorems": [
    "C03_batches_1d",
    "C03_batches_1d_unweighted",
    "C03_order_1d",
    "C03_batches_2d",
    "C03_order_2d"
   ],
   "note": ""
  },
  {
   "property": "C04",
   "status": "proved",
   "theorems": [
    "C04_equal_width_binning",
    "C04_invalid_binning_rejected",
    "C04_given_edges",
    "C04_two_dimensions",
    "C04_two_dimensions_given_edges",
    "C04_rejections",
    "C04_list_edges"
   ],
   "note": ""
  },
  {
   "property": "C05",
   "status": "proved",
   "theorems": [
    "C05_unweighted_counts"
   ],
   "note": ""
  },
  {
   "property": "C06",
   "status": "proved",
   "theorems": [
    "C06_each_event_in_its_cell",
    "C06_fill_succeeds"
   ],
   "note": ""
  },
  {
   "property": "C07",
   "status": "proved",
   "theorems": [
    "C07_projections_are_marginals",
    "C07_projection_in_program"
   ],
   "note": ""
  },
  {
   "property": "C08",
   "status": "partial",
   "theorems": [
    "C08_fill_atomic_refuted",
    "C08_fill1_atomic_partial",
    "C08_fill2_atomic_partial"
   ],
   "note": "REFUTED: with weights given as a tuple bin_counts are updated before weights ** 2 raises TypeError. Proved for all other weights (1d and 2d)."
  },
  {
   "property": "C09",
   "status": "proved",
   "theorems": [
    "C09_from_binned_1d",
    "C09_from_binned_2d"
   ],
   "note": ""
  },
  {
   "property": "C10",
   "status": "partial",
   "theorems": [
    "C10_constructed_histograms_partial",
    "C10_binned_histograms_partial",
    "C10_no_write_refuted",
    "C10_fill_value"
   ],
   "note": "REFUTED: from_binned_data keeps the caller's count array and fill adds to it in place (also visible in other histograms made from it). Proved: fills of histograms made by a constructor or projection touch no caller array and no other histogram; fills of from_binned histograms touch only that count array. C10_fill_value: fill leaves the object with exactly the value and outcome of the value model (C01-C06) for every history."
  },
  {
   "property": "C11",
   "status": "proved",
   "theorems": [
    "C11_cov2corr_is_correlation"
   ],
   "note": ""
  },
  {
   "property": "C12",
   "status": "partial",
   "theorems": [
    "C12_corr2cov_inverse_refuted",
    "C12_corr2cov_with_std_partial",
    "C12_corr2cov_with_variances"
   ],
   "note": "REFUTED: corr2cov multiplies with the variances; it is the inverse of cov2corr only when given standard deviations (proved)."
  },
  {
   "property": "C13",
   "status": "proved",
   "theorems": [
    "C13_systematic_cov_valid"
   ],
   "note": ""
  },
  {
   "property": "C14",
   "status": "partial",
   "theorems": [
    "C14_swap_up_down_refuted",
    "C14_swap_up_down_partial",
    "C14_swap_up_down_iff"
   ],
   "note": "REFUTED for bins with up = down <> nominal (the sign is +1 for ties). C14_swap_up_down_iff: exactly when: the matrix changes iff some bin has up = down <> nominal and some other bin has up <> down."
  },
  {
   "property": "C15",
   "status": "proved",
   "theorems": [
    "C15_resolves",
    "C15_rejects",
    "C15_lookup",
    "C15_name_index_agree"
   ],
   "note": "id_to_index/param_id_to_index, get_param_value, get_param_error and __getitem__ for every identifier (str, int, bool, other)."
  },
  {
   "property": "C16",
   "status": "proved",
   "theorems": [
    "C16_xlogyx_value",
    "C16_xlogyx_small_or_nan",
    "C16_xlogyx_zero_expectation",
    "C16_xlogyx_negative_expectation"
   ],
   "note": ""
  },
  {
   "property": "C17",
   "status": "proved",
   "theorems": [
    "C17_split_is_prefix",
    "C17_split_complete",
    "C17_nothing_after_none",
    "C17_sizes"
   ],
   "note": ""
  },
  {
   "property": "C18",
   "status": "proved",
   "theorems": [
    "C18_histograms_have_contents",
    "C18_histograms_2d_have_contents",
    "C18_fractions_normalised"
   ],
   "note": ""
  },
  {
   "property": "C19",
   "status": "proved",
   "theorems": [
    "C19_values_add_up_to_yield",
    "C19_new_template_reproduces_histogram",
    "C19_values_and_errors"
   ],
   "note": "Errors of a new template equal sqrt(bin_errors_sq) in every bin with non-zero count and error (bins without error get 1e-7 by construction)."
  },
  {
   "property": "C20",
   "status": "partial",
   "theorems": [
    "C20_empty_template_refuted"
   ],
   "note": "REFUTED: values of a template of an all-zero histogram are nan in every bin (0/0 in fractions)."
  },
  {
   "property": "C21",
   "status": "proved",
   "theorems": [
    "C21_template_covariance",
    "C21_add_cov_mat_succeeds",
    "C21_inv_spec_satisfiable"
   ],
   "note": "np.linalg.inv is a parameter with inv_spec; that positive definite correlation matrices are invertible is proved."
  },
  {
   "property": "C22",
   "status": "partial",
   "theorems": [
    "C22_add_cov_mat_atomic_refuted",
    "C22_wrong_shape_rejected_partial",
    "C22_covariances_never_fail_partial"
   ],
   "note": "REFUTED: when np.linalg.inv raises LinAlgError cov_mats, cov_mat and corr have been updated. Proved: a matrix of wrong shape is rejected without effect, covariance matrices never fail."
  },
  {
   "property": "C23",
   "status": "partial",
   "theorems": [
    "C23_reset_partial",
    "C23_reset_parameters_partial",
    "C23_reset_after_fill_refuted"
   ],
   "note": "Proved for every history in which the template's histogram is not filled after the template was created (reset() re-reads histogram.bin_counts.sum(), so it restores the original yield only then): C23_reset_partial for Template.reset, C23_reset_parameters_partial for MultiChannelTemplate.reset_parameters. C23_reset_after_fill_refuted: filling the histogram in between changes what reset() restores (1 -> 2)."
  },
  {
   "property": "C24",
   "status": "proved",
   "theorems": [
    "C24_params_setter",
    "C24_params_setter_rejects",
    "C24_yield_setter",
    "C24_yield_setter_rejects",
    "C24_nui_setter",
    "C24_nui_setter_rejects",
    "C24_exceptions",
    "C24_setters_accept"
   ],
   "note": ""
  },
  {
   "property": "C25",
   "status": "partial",
   "theorems": [
    "C25_add_variation_2d_refuted",
    "C25_add_variation_2d_raises_TypeError"
   ],
   "note": "REFUTED: Template2d.add_variation raises TypeError for all arguments (calls _add_cov_mat with two arguments)."
  },
  {
   "property": "C26",
   "status": "partial",
   "theorems": [
    "C26_variation_own_bins_refuted",
    "C26_variation_own_bins_partial"
   ],
   "note": "REFUTED for non-uniform binning: the variation histograms use equal-width bins. Proved for equally spaced edges."
  },
  {
   "property": "C27",
   "status": "proved",
   "theorems": [
    "C27_add_template_atomic",
    "C27_add_template_rejected",
    "C27_add_template_accepted_iff",
    "C27_processes_ordered_unique"
   ],
   "note": "All call histories. One MultiChannelTemplate; add_template is called through it."
  },
  {
   "property": "C28",
   "status": "partial",
   "theorems": [
    "C28_same_shape_and_range_partial",
    "C28_equally_spaced_edges_agree_partial",
    "C28_edges_refuted"
   ],
   "note": "REFUTED: only number of bins and range are compared, so edges 0,1,4 and 0,2,4 share a channel. Proved: same shape and range in every reachable state; equally spaced histograms share their edges."
  },
  {
   "property": "C29",
   "status": "partial",
   "theorems": [
    "C29_define_process",
    "C29_define_new_channel_partial",
    "C29_define_channel_again_refuted"
   ],
   "note": "REFUTED for channels: define_channel with an existing name replaces the channel (templates and data are dropped) without an exception. Proved for define_process and for new channel names."
  },
  {
   "property": "C30",
   "status": "proved",
   "theorems": [
    "C30_aligned",
    "C30_start_values_exist",
    "C30_start_values_error"
   ],
   "note": "Positions, names and values for all reachable states, when start values exist, and ValueError otherwise."
  },
  {
   "property": "C31",
   "status": "partial",
   "theorems": [
    "C31_names_unique_partial",
    "C31_no_underscore_partial",
    "C31_names_collide_refuted"
   ],
   "note": "REFUTED: channel 'a' process 'b_c' and channel 'a_b' process 'c' give the same names. Proved: unique if no two templates give the same channel_process string, in particular without underscores in channel names (uniqueness within a channel, of yields, and between yields and nuisance parameters always holds)."
  },
  {
   "property": "C32",
   "status": "partial",
   "theorems": [
    "C32_routing_partial",
    "C32_stale_indices_refuted"
   ],
   "note": "REFUTED in general: Channel.process_indices is lru_cached per channel object, so after add_template following an evaluation the old index list is used. Proved for all histories in which no template is added after the first evaluation or update_parameters (covariances may be added at any time)."
  },
  {
   "property": "C33",
   "status": "partial",
   "theorems": [
    "C33_update_parameters_partial",
    "C33_stale_indices_refuted",
    "C33_shared_template_refuted"
   ],
   "note": "REFUTED in general: with stale process indices update_parameters raises ValueError; a template object used in two channels gets the efficiency of the last one. Proved for histories that add no template after the first use (covariances may be added), with distinct template objects."
  },
  {
   "property": "C34",
   "status": "partial",
   "theorems": [
    "C34_get_after_set_partial",
    "C34_get_after_update_partial",
    "C34_get_after_set_refuted",
    "C34_unknown_process"
   ],
   "note": "REFUTED: get_yield sums the yield parameters, which contain the efficiencies, so set 8, get 4 with efficiency 1/2. Proved: the returned value is the set value times the sum of the efficiencies (the same value iff these sum to one). C34_get_after_update_partial for histories that add no template after the first use. C34_unknown_process: RuntimeError and no change."
  },
  {
   "property": "C35",
   "status": "proved",
   "theorems": [
    "C35_set_yield_only_named_process"
   ],
   "note": "For all reachable states."
  },
  {
   "property": "C36",
   "status": "proved",
   "theorems": [
    "C36_nll_value",
    "C36_views_exist"
   ],
   "note": "C36_nll_value: for all histories without add_template/add_cov_mat/add_variation after the first evaluation (the property's quantifier), all x and all views in the domain. C36_views_exist: views exist after all histories with usable arguments. Exact real arithmetic."
  },
  {
   "property": "C37",
   "status": "proved",
   "theorems": [
    "C37_zero_at_asimov",
    "C37_nll_nonneg"
   ],
   "note": "C37_nll_nonneg and C37_zero_at_asimov (update_parameters, generate_asimov_dataset, add_data, nll at the same x: only the constraint terms remain; 0 without constraints). C37_example instantiates it. Hypotheses: expectations 0 or >= 1e-100 because xlogyx treats smaller counts as zero."
  },
  {
   "property": "C38",
   "status": "partial",
   "theorems": [
    "C38_current_templates_partial",
    "C38_template_added_later_refuted",
    "C38_covariance_added_later_refuted"
   ],
   "note": "C38_current_templates_partial: if templates/covariances are not added after the first evaluation, every evaluation equals the one in a process with empty caches. Refuted in general: C38_template_added_later_refuted (ValueError after adding a template), C38_covariance_added_later_refuted (silently wrong value after add_cov_mat), because of the immutable_cached_property caches."
  },
  {
   "property": "C39",
   "status": "partial",
   "theorems": [
    "C39_evicted_refuted",
    "C39_repeatable_128_partial",
    "C39_no_side_effect",
    "C39_repeatable_partial"
   ],
   "note": "C39_no_side_effect for all worlds and all x (even malformed). C39_repeatable_partial: repeatability whatever is evaluated in between, for histories where templates and covariances are not added after the first use; C39_repeatable_128_partial: for all histories whatsoever in which at most 128 channel objects were made (capacity of lru_cache). C39_evicted_refuted: the bound 128 is exact. With 129 channels and a template added after a first evaluation, nll(x) called twice in a row returns 130 and then 131 (the first call uses the stale process indices of a channel and evicts them). So the property is settled: true for at most 128 channel objects or when templates are not added late, false otherwise."
  },
  {
   "property": "C40",
   "status": "partial",
   "theorems": [
    "C40_undefined_process_rejected",
    "C40_adds_one_term_partial",
    "C40_constrained_twice_refuted"
   ],
   "note": "A first constraint on a process adds exactly its term, in all states (partial); undefined process rejected; a second constraint on the same process does not replace the first: its term is counted twice (refuted)."
  },
  {
   "property": "C41",
   "status": "partial",
   "theorems": [
    "C41_add_data_partial",
    "C41_not_atomic_refuted"
   ],
   "note": "add_data stores entries one by one: if a later entry is rejected the earlier ones stay (refuted). Partial: exactly the entries before the first bad one are stored, and nothing else changes."
  },
  {
   "property": "C42",
   "status": "proved",
   "theorems": [
    "C42_asimov",
    "C42_rint",
    "C42_toy",
    "C42_empty_channel_raises"
   ],
   "note": "Asimov and toy; [draws] is what the random generator returned."
  },
  {
   "property": "C43",
   "status": "proved",
   "theorems": [
    "C43_lengths",
    "C43_initial",
    "C43_assignments"
   ],
   "note": "Every sequence of assignments to values, errors, covariance, correlation (C43_lengths); effect or rejection of each single assignment (C43_assignments)."
  },
  {
   "property": "C44",
   "status": "proved",
   "theorems": [
    "C44_handed_to_minuit"
   ],
   "note": "The keyword arguments with which Minuit is started after any sequence of set_param_fixed/set_param_bounds/release_params calls; Minuit itself is an arbitrary external program."
  },
  {
   "property": "C45",
   "status": "partial",
   "theorems": [
    "C45_one_fixed_partial",
    "C45_two_fixed_refuted"
   ],
   "note": "REFUTED in general: the lambdas of _create_constraints share the loop variable, only the parameter fixed last is constrained (C45_two_fixed_refuted). Proved if at most one parameter is fixed (C45_one_fixed_partial)."
  },
  {
   "property": "C46",
   "status": "partial",
   "theorems": [
    "C46_requests_partial",
    "C46_scipy_requests_partial",
    "C46_unknown_parameter",
    "C46_mixed_identifiers_refuted",
    "C46_scipy_refuted"
   ],
   "note": "REFUTED in general: (1) set_parameter_bounds with a name and an index for the same parameter: bounds are applied in the order of first use of each identifier (C46_mixed_identifiers_refuted); (2) with scipy only the parameter fixed last is constrained (C46_scipy_refuted). Proved for all histories with iminuit if bounds of a parameter are always set with the same identifier (C46_requests_partial), for scipy if at most one parameter is to be fixed (C46_scipy_requests_partial); unknown identifiers raise ValueError before a fit (C46_unknown_parameter)."
  },
  {
   "property": "C47",
   "status": "partial",
   "theorems": [
    "C47_flag_ignored_refuted"
   ],
   "note": "REFUTED: the flag set by TemplateFitter.fix_nui_params() is never read (C47_flag_ignored_refuted, for all histories)."
  },
  {
   "property": "C48",
   "status": "partial",
   "theorems": [
    "C48_evicted_refuted",
    "C48_no_update",
    "C48_update",
    "C48_update_exactly_partial",
    "C48_update_exactly_128_partial"
   ],
   "note": "C48_no_update and C48_update hold in every state and for arbitrary optimizers. C48_update_exactly_128_partial: for ALL histories with at most 128 channel objects a fit with update_templates either raises before it changes anything or has exactly the effect and the exception (if any) of a direct update_parameters call. C48_update_exactly_partial: any number of channels, for histories that add no template after the first use. C48_evicted_refuted: the bound is exact. With 129 channels and a template added after a first evaluation, a successful fit with update_templates updates the templates although update_parameters with the fitted values, called before the fit, raises ValueError (the evaluations of the fit evict the stale entry)."
  },
  {
   "property": "C49",
   "status": "partial",
   "theorems": [
    "C49_results_are_kept",
    "C49_minimizer_refuted"
   ],
   "note": "Fitter level proved for every state and every continuation (C49_results_are_kept). REFUTED at minimizer level: a second minimize() of the same minimizer overwrites the Parameters object of the first result (C49_minimizer_refuted)."
  },
  {
   "property": "C50",
   "status": "proved",
   "theorems": [
    "C50_failure",
    "C50_exception",
    "C50_success"
   ],
   "note": "scipy.optimize.minimize and numdifftools.Hessian are arbitrary terminating programs calling the objective; success, reported failure and exceptions of the optimizer."
  },
  {
   "property": "C51",
   "status": "proved",
   "theorems": [
    "C51_schedule_independent",
    "C51_no_side_effect",
    "C51_scan"
   ],
   "note": "Full. The pool is modelled as an asynchronous system (workers take tasks and step in any order); C51_schedule_independent: same outcome for all worker counts and schedules, termination under every fair schedule, never stuck; C51_scan: what the outcome is. C52_requests_ignored_refuted exhibits a successful scan (non-vacuity)."
  },
  {
   "property": "C52",
   "status": "partial",
   "theorems": [
    "C52_scan_runs_partial",
    "C52_requests_ignored_refuted"
   ],
   "note": "Refuted: the scan minimizations fix only the scanned parameter and have no bounds (C52_requests_ignored_refuted, concrete templates); proved part: the scanned parameter is fixed at the scan point in every run, with the exact Minuit arguments (C52_scan_runs_partial). Missing: fixes of nuisance parameters, user fixes and bounds, which the code drops."
  },
  {
   "property": "C53",
   "status": "proved",
   "theorems": [
    "C53_parabola"
   ],
   "note": "Full, for non-zero uncertainty and finite minimum; for zero uncertainty all values are NaN."
  },
  {
   "property": "C54",
   "status": "partial",
   "theorems": [
    "C54_value",
    "C54_likelihood_ratio_partial",
    "C54_scipy_refuted",
    "C54_scipy_nan_refuted"
   ],
   "note": "Any state, arbitrary optimizers. C54_value: the value from the two minimizations of the call (0 if the fitted yield is negative; sqrt(2(m2-m1)), NaN if m2<m1). C54_likelihood_ratio_partial (iminuit): both Minuit runs have the same limits and objective function; the second fixes the same parameters and the yield and starts at the same point with yield 0; a non-negative real number if both runs find the minimum of their domain. Restrictions: histories without add_template after first use, no template object used twice, p's yield not fixed by the user. False for scipy: only the yield is constrained in the second run (C54_scipy_refuted, any state) so that a significance of NaN results in C54_scipy_nan_refuted although both minimizations are exact on what they were told. ex_C54_C55: a call with result sqrt 2."
  },
  {
   "property": "C55",
   "status": "partial",
   "theorems": [
    "C55_other_objects_partial",
    "C55_yield_lost_refuted"
   ],
   "note": "False: whenever the fitted yield is not negative the call leaves the yields of all templates of the process at 0 (C55_yield_lost_refuted, any reachable state; ex_C54_C55: 4 before, 0 after). C55_other_objects_partial: for every outcome nothing else changes."
  },
  {
   "property": "C56",
   "status": "proved",
   "theorems": [
    "C56_experiments",
    "C56_history",
    "C56_before",
    "C56_columns",
    "C56_no_columns"
   ],
   "note": "For all optimizers and random numbers (different in every toy fit). C56_experiments: one call; do_experiments returns iff every experiment has a successful toy fit among at most max_tries, with exactly n rows, and at most n*max_tries toy fits; otherwise it raises RuntimeError after max_tries RuntimeErrors of one experiment (or the other exception) and all accessors raise RuntimeError. C56_history: for all histories of calls the accessible results are those of the last study if it returned, otherwise the accessors raise. C56_before: before any study. C56_columns: get_toy_results. Excluded in C56_history: linearity tests with n_exp = 0 (they raise IndexError but leave the object marked as fitted; no experiment fails there). ex_C56_C57_C67, ex_C56_fails: studies with n arbitrary. C56_no_columns: unknown process raises ValueError, a study of zero experiments IndexError."
  },
  {
   "property": "C57",
   "status": "partial",
   "theorems": [
    "C57_value",
    "C57_pulls_partial",
    "C57_pulls_refuted"
   ],
   "note": "C57_value: the pull is (value - Y)/uncertainty with Y the result of get_yield(p) when the pulls are requested, for all histories between study and request. C57_pulls_partial: directly after the study Y is the generated yield times the sum of the efficiencies of the process, so the pulls are as documented if the sum is 1. Otherwise false: C57_pulls_refuted, for every configuration: if all fits find exactly the generated yield y with uncertainty e, all pulls are y(1-E)/e instead of 0; ex_C56_C57_C67 is a concrete study with E = 1/2."
  },
  {
   "property": "C58",
   "status": "proved",
   "theorems": [
    "C58_pearson_value",
    "C58_pearson_distance",
    "C58_default_value",
    "C58_default_distance",
    "C58_no_uncertainty"
   ],
   "note": "p-value left as an arbitrary function (numerical quadrature is not modelled)."
  },
  {
   "property": "C59",
   "status": "partial",
   "theorems": [
    "C59_cowan_empty_bin_refuted",
    "C59_cowan_value_partial",
    "C59_cowan_distance_partial"
   ],
   "note": "REFUTED for empty data bins (0*log(0) = nan). Value, non-negativity and vanishing only at equality proved for positive data."
  },
  {
   "property": "C60",
   "status": "proved",
   "theorems": [
    "C60_propagation_value",
    "C60_propagation_valid"
   ],
   "note": "The Jacobian returned by numdifftools is an arbitrary matrix."
  },
  {
   "property": "C61",
   "status": "partial",
   "theorems": [
    "C61_bin_counts_partial",
    "C61_order_refuted"
   ],
   "note": "C61_bin_counts_partial: single channel whose templates were added in the order of the processes, none after the first use. C61_order_refuted: with templates added in another order the channel attributes the yields to the wrong processes (5/4, 7/4 instead of 1, 2)."
  },
  {
   "property": "C62",
   "status": "partial",
   "theorems": [
    "C62_value_partial",
    "C62_views_exist",
    "C62_empty_bin_refuted"
   ],
   "note": "Proved for all histories, datasets with data in every bin and parameters (C62_value_partial, C62_views_exist). With an empty bin the documented value is false: nan_to_num(nan=inf) turns 0*log(0) into +inf and the likelihood is -inf (C62_empty_bin_refuted, for every container and parameter vector). The penalty uses the matrices at the creation (C74)."
  },
  {
   "property": "C63",
   "status": "proved",
   "theorems": [
    "C63_contents_after_any_history",
    "C63_calls_succeed",
    "C63_scale_multiplies",
    "C63_scale_and_fill_commute",
    "C63_relative_errors_unchanged",
    "C63_errors"
   ],
   "note": "Legacy Histogram for every history of successful fill and scale calls: contents, entries and squared errors of each bin against the list of events with all later factors applied; calls with matching weights succeed; scale commutes with fill; relative errors of bins with content unchanged for positive factors."
  },
  {
   "property": "C64",
   "status": "partial",
   "theorems": [
    "C64_reset_restores_partial",
    "C64_container_reset_restores_partial",
    "C64_initial_parameters",
    "C64_reset_restores_refuted",
    "C64_update_gives_blocks"
   ],
   "note": "reset_parameters of template and container restores yields, nuisance parameters and errors after every history without in-place writes into the templates' own arrays; without that restriction it is refuted (the original array is handed out by nui_param_values). update_parameters gives every template its own block (C64_update_gives_blocks)."
  },
  {
   "property": "C65",
   "status": "partial",
   "theorems": [
    "C65_corr_mat_refuted"
   ],
   "note": "Refuted: the property returns itself, every evaluation ends with RecursionError."
  },
  {
   "property": "C66",
   "status": "partial",
   "theorems": [
    "C66_arguments_are_copied_partial",
    "C66_edges_are_shared_refuted",
    "C66_counts_are_shared_refuted",
    "C66_created_value"
   ],
   "note": "REFUTED for edge arrays and for the counts given to from_binned_data (kept by reference). Proved for data, weights and errors arrays. C66_created_value: constructors, from_binned_data and projections make objects with exactly the values of the value model for the current argument arrays; failing calls change nothing."
  },
  {
   "property": "C67",
   "status": "proved",
   "theorems": [
    "C67_only_data"
   ],
   "note": "Any state, arbitrary optimizers, random numbers and outcomes. Linearity tests do change template parameters (C68)."
  },
  {
   "property": "C68",
   "status": "proved",
   "theorems": [
    "C68_linearity"
   ],
   "note": "Any history in which no template object is used twice; n_exp > 0; test that returned. Means and standard deviations are computed over finite fitted values (np.mean/np.std otherwise give NaN or inf). n_points = 1 uses lo. ex_C68: the hypotheses are met for all n_points and n_exp."
  },
  {
   "property": "C69",
   "status": "partial",
   "theorems": [
    "C69_empty_bins_refuted",
    "C69_filled_bins_partial"
   ],
   "note": "False of the code: np.nan comparison. Every bin without events has the relative error NaN (0/0), for every history (_refuted). Partial: bins with content have sqrt(sum of w^2)/content, never 0, so the 1e-7 branch is unreachable for them."
  },
  {
   "property": "C70",
   "status": "partial",
   "theorems": [
    "C70_projections_current_partial",
    "C70_projections_stale_refuted"
   ],
   "note": "Proved for all histories in which no weights are given as a tuple (_partial). Refuted with a tuple: fill raises TypeError after it has changed the counts and before it clears the caches."
  },
  {
   "property": "C71",
   "status": "partial",
   "theorems": [
    "C71_update_copies_refuted",
    "C71_yields_are_copies_partial"
   ],
   "note": "Refuted for nuisance parameters: np.split returns views, so writing into the caller's array changes the parameters; yields are copies."
  },
  {
   "property": "C72",
   "status": "partial",
   "theorems": [
    "C72_x0_and_names_partial",
    "C72_lengths_refuted",
    "C72_asimov_start_partial"
   ],
   "note": "Proved for parameters with one nuisance value per bin; after update_parameters with blocks of another length x0 and param_names have different lengths (refuted). Value at x0 on the Asimov dataset proved if all its bins are positive (an empty bin gives -inf, C62)."
  },
  {
   "property": "C73",
   "status": "proved",
   "theorems": [
    "C73_members_fit",
    "C73_add_template"
   ],
   "note": "Invariant over all histories, and the effect of add_template in both cases."
  },
  {
   "property": "C74",
   "status": "partial",
   "theorems": [
    "C74_penalty_frozen_refuted",
    "C74_example_refuted"
   ],
   "note": "Refuted: the block matrix is computed in the constructor; difference of the two likelihoods at every x, and a concrete history with difference 1/3."
  },
  {
   "property": "C75",
   "status": "partial",
   "theorems": [
    "C75_wrong_length_accepted_refuted",
    "C75_rejected_update_refuted"
   ],
   "note": "Refuted: arrays of length T + T*m are accepted for every m, and a rejected update has already replaced the yields."
  },
  {
   "property": "C76",
   "status": "partial",
   "theorems": [
    "C76_template_plot_partial",
    "C76_list_edges_refuted"
   ],
   "note": "C76_template_plot_partial proves the claim for numpy edges. It is false for edges given as a python list: plot_on raises TypeError before drawing (C76_list_edges_refuted). Matplotlib is modelled by the calls made; what a histogram, bar or point shows is spelled out in Spec_Plot.v."
  },
  {
   "property": "C77",
   "status": "partial",
   "theorems": [
    "C77_stacked_partial",
    "C77_two_dimensional",
    "C77_no_template",
    "C77_edges_refuted"
   ],
   "note": "Proved for channels whose templates (and data) have the same array edges (C77_stacked_partial). False in general: add_template accepts templates with other edges of the same range (C28), and plot_stacked_on puts their contents into wrong bins (C77_edges_refuted). Two-dimensional channels raise NotImplementedError and channels without templates TypeError, drawing nothing (C77_two_dimensional, C77_no_template)."
  },
  {
   "property": "C78",
   "status": "partial",
   "theorems": [
    "C78_propagate_partial",
    "C78_scale_partial",
    "C78_unknown_option",
    "C78_several_channels_refuted"
   ],
   "note": "Proved for models with one channel to which one template per process was added in the order of the processes (C78_propagate_partial, C78_scale_partial; the Jacobian is what numdifftools returned). False for every model with a second channel that has a template: ValueError after the stack was drawn (C78_several_channels_refuted). C78_unknown_option: UnboundLocalError."
  },
  {
   "property": "C79",
   "status": "proved",
   "theorems": [
    "C79_cells",
    "C79_projections"
   ],
   "note": "Colours and colour bars are not modelled."
  },
  {
   "property": "C80",
   "status": "proved",
   "theorems": [
    "C80_process_yield_errors"
   ],
   "note": "E q i is the sum of squared errors that channel i contributes to process q; the hypothesis says what `errors` of each template shows, C19 when it exists."
  },
  {
   "property": "C81",
   "status": "partial",
   "theorems": [
    "C81_plot_on_raises_refuted",
    "C81_histogram_drawn_partial",
    "C81_example"
   ],
   "note": "Refuted: line 269 subtracts from the method `values` instead of its result, so plot_on raises for every template. Partial: the histogram drawn before shows the expectation."
  },
  {
   "property": "C82",
   "status": "proved",
   "theorems": [
    "C82_stack_plot",
    "C82_example"
   ],
   "note": "`expects` (Spec_LegacyPlot) gives values and errors of a template as formulas in counts, covariance matrices, yield and nuisance parameters."
  },
  {
   "property": "C83",
   "status": "proved",
   "theorems": [
    "C83_template",
    "C83_container",
    "C83_negative_expectation",
    "C83_example"
   ],
   "note": "Rounding is `nearest` of Spec_Data (ties to even). The draws are universally quantified."
  },
  {
   "property": "C84",
   "status": "partial",
   "theorems": [
    "C84_counts_of_wrong_length_refuted",
    "C84_kept_as_given_partial"
   ],
   "note": "Refuted: three counts with the edges of two bins are accepted and kept, so shape and bin_counts disagree; C84_kept_as_given_partial says exactly when they agree."
  },
  {
   "property": "C85",
   "status": "partial",
   "theorems": [
    "C85_integer_counts_refuted",
    "C85_integer_errors_refuted",
    "C85_floats_partial"
   ],
   "note": "Refuted: numpy cannot add floats to an array of integers in place; if only the errors are integers the counts have already changed. Partial: with float arrays all fills behave as in Model_Hist (C01-C09)."
  },
  {
   "property": "C86",
   "status": "partial",
   "theorems": [
    "C86_integer_errors_refuted",
    "C86_zero_variance_refuted",
    "C86_floats_partial"
   ],
   "note": "Refuted: with integer errors `+=` raises TypeError after the list of covariances has grown, and the minimal variance 1e-14 is stored as 0. Partial: with float errors everything is as in Model_Template (C21, C22, C26)."
  },
  {
   "property": "C87",
   "status": "partial",
   "theorems": [
    "C87_shared_refuted",
    "C87_integers_refuted",
    "C87_own_parameters_partial",
    "C87_accepted"
   ],
   "note": "Refuted: an array assigned to params is kept by reference and its integer type too. Partial: for histories in which each array is given to at most one template and is not an array of integers (polite_history) the property holds. C87_accepted: exactly which assignments are accepted, and the exception otherwise."
  },
  {
   "property": "C88",
   "status": "proved",
   "theorems": [
    "C88_template_added_later"
   ],
   "note": "Proved for all histories with at most 128 channel objects (capacity of lru_cache): the cached matrix of the first evaluation does not fit the longer block of nuisance parameters. Example: C88_example."
  },
  {
   "property": "C89",
   "status": "proved",
   "theorems": [
    "C89_frozen_precision"
   ],
   "note": "Proved for all histories with at most 128 channel objects: the exact value in the situation that refutes C38. Example C89_example: value 3 (2 + 2/3 with the current covariance)."
  },
  {
   "property": "C90",
   "status": "partial",
   "theorems": [
    "C90_arrays_refuted",
    "C90_unchanged_partial",
    "C90_stored_array_returned",
    "C90_stale_refuted"
   ],
   "note": "REFUTED: arrays have no hash, so the documented argument always raises TypeError; with tuples the lru_cache returns the same (mutable) array object until 128 other keys were used, so changes of the function's state are not seen and writes of a caller are. Proved: right as long as the function's state is unchanged and nobody wrote to a returned array; and exactly the stored array otherwise (fewer than 128 operations later)."
  },
  {
   "property": "C91",
   "status": "proved",
   "theorems": [
    "C91_exact_sums",
    "C91_unweighted",
    "C91_agrees_with_reals",
    "C91_np_sum"
   ],
   "note": "Model_Float rounds every operation to binary64 (Flocq's round to nearest even with subnormals; no overflow, NaN, infinities). C91_agrees_with_reals: under the condition the real-number model of C01-C09 gives the same numbers."
  },
  {
   "property": "C92",
   "status": "partial",
   "theorems": [
    "C92_order_refuted",
    "C92_batches_refuted",
    "C92_counts_close_partial",
    "C92_errors_close_partial"
   ],
   "note": "REFUTED that order and batches do not matter at all (2^53 and two weights 3/4). Proved: the error bound; for the squared errors if no squared weight underflows."
  },
  {
   "property": "C93",
   "status": "partial",
   "theorems": [
    "C93_edges_partial",
    "C93_increasing_partial",
    "C93_narrow_refuted"
   ],
   "note": "REFUTED without a condition: 4 bins between 1 and the next double have two equal edges. Proved: limits exact, edges non-decreasing and close for ranges that are not denormally small and at most 2^50 bins; strictly increasing if the bins are wider than 2^-47 of the largest limit."
  },
  {
   "property": "C94",
   "status": "partial",
   "theorems": [
    "C94_close_partial",
    "C94_exact_refuted"
   ],
   "note": "REFUTED as an exact equality even for efficiencies with sum 1 (three channels, value 7). Proved: the error bound, unless a product underflows."
  },
  {
   "property": "C95",
   "status": "partial",
   "theorems": [
    "C95_same_1d_partial",
    "C95_same_2d_partial",
    "C95_moved_partial",
    "C95_above_refuted",
    "C95_below_refuted"
   ],
   "note": "REFUTED: scipy compares with the upper edge after rounding, so 1 + 1e-7 is counted in a histogram on [0, 1]; older scipy releases lose 1 - 1e-7. Proved: identical to the exact comparison of C01-C09 if no event is closer to the upper edge than 1/100000 of the smallest bin width (1D and 2D, both variants); in general (newer variant) some of those events above the edge are treated as if on it, nothing else changes."
  },
  {
   "property": "C96",
   "status": "partial",
   "theorems": [
    "C96_values_partial",
    "C96_total_partial",
    "C96_new_template_partial",
    "C96_new_template_events_partial",
    "C96_reproduces_counts_refuted"
   ],
   "note": "REFUTED as exact reproduction: 1 and 48 events give a first bin of 1 - 2^-53. Proved: error bounds for values, sum and reproduction (2^-51 relative, independent of the number of bins, for exactly summable counts)."
  },
  {
   "property": "C97",
   "status": "partial",
   "theorems": [
    "C97_errors_close_partial",
    "C97_errors_exact_refuted"
   ],
   "note": "REFUTED as an equality: the root is taken and squared, 2 events give a squared error of 2 + 2^-51. Proved: relative error at most 2^-51."
  },
  {
   "property": "C98",
   "status": "partial",
   "theorems": [
    "C98_accepts_only_same_numbers_partial",
    "C98_tuples_1d_partial",
    "C98_tuples_2d_partial",
    "C98_list_range_refuted",
    "C98_list_bins_refuted"
   ],
   "note": "REFUTED: the comparison distinguishes tuples and lists: a range given as a list on one side is refused, and a channel with its numbers of bins in a list wraps them in a tuple and accepts nothing. Proved: never accepts other numbers; with tuples accepts exactly the same numbers."
  },
  {
   "property": "C99",
   "status": "partial",
   "theorems": [
    "C99_parameters_lost_refuted",
    "C99_unknown_process_refuted",
    "C99_other_objects_partial"
   ],
   "note": "REFUTED in its first part: after a test that returned, every template in use has nominal parameters and the tested process the yield of the last point (C99_parameters_lost_refuted); with an unknown process RuntimeError comes only after all parameters were reset and the results of the study dropped (C99_unknown_process_refuted). Proved for every outcome (C99_other_objects_partial): only template parameters, channel data and new objects change, and the other studies keep their results. ex_C99 is a concrete test that changes a yield from 4 to 1."
  },
  {
   "property": "C100",
   "status": "proved",
   "theorems": [
    "C100_template",
    "C100_new_template",
    "C100_container",
    "C100_fractions"
   ],
   "note": "Found by mutation l21 (linear sum of errors in the container broke no theorem). Real arithmetic; the sum of the varied contents must not be 0 (otherwise division by zero, see C20 for the new templates)."
  },
  {
   "property": "C101",
   "status": "partial",
   "theorems": [
    "C101_density",
    "C101_probability",
    "C101_decreasing",
    "C101_vanishes",
    "C101_more_dof",
    "C101_even",
    "C101_one_dof",
    "C101_pearson",
    "C101_default",
    "C101_cowan_partial",
    "C101_no_dof"
   ],
   "note": "quad is taken as the exact improper integral (quadrature error not modelled). Proved for every dof >= 1 by the recursion in steps of two and the Gaussian integral (Proof_Gauss.v). Partial: the likelihood test gives nan for empty data bins (C59), so C101_cowan_partial needs positive data."
  },
  {
   "property": "C102",
   "status": "partial",
   "theorems": [
    "C102_fresh",
    "C102_fresh_channel",
    "C102_independent",
    "C102_value",
    "C102_shared_template_refuted"
   ],
   "note": "Refuted part: one template object in two models couples them (C102_shared_template_refuted); proved: the caches shared by all channels never give a wrong value in programs that complete a channel before its first evaluation (otherwise: C38, C39), independence for calls that change no object of the model, and the value."
  },
  {
   "property": "C103",
   "status": "partial",
   "theorems": [
    "C103_add_template",
    "C103_add_data",
    "C103_empty_channel_raises",
    "C103_update_parameters",
    "C103_values",
    "C103_unknown_process_raises",
    "C103_unknown_process_refuted"
   ],
   "note": "Refuted part: a channel taken from a model accepts a template of a process the model does not know, and then every evaluation of its likelihood raises (C103_unknown_process_refuted, C103_unknown_process_raises)."
  },
  {
   "property": "C104",
   "status": "partial",
   "theorems": [
    "C104_minuit_stores",
    "C104_no_matrix_refuted",
    "C104_minuit_exception",
    "C104_without_hesse_refuted",
    "C104_singular_hesse_refuted"
   ],
   "note": "Refuted parts: a missing covariance matrix, a singular Hesse matrix and get_hesse=False leave values, errors and covariance that do not belong together (C104_no_matrix_refuted, C104_singular_hesse_refuted, C104_without_hesse_refuted)."
  },
  {
   "property": "C105",
   "status": "partial",
   "theorems": [
    "C105_add",
    "C105_sub",
    "C105_mul",
    "C105_div",
    "C105_division_by_minus_zero_refuted",
    "C105_sqrt",
    "C105_opp_abs",
    "C105_compare",
    "C105_values",
    "C105_log",
    "C105_log1p",
    "C105_rint",
    "C105_nan_to_num"
   ],
   "note": "For all pairs of doubles (including infinities, NaN, subnormals, both zeros): each of the model's operations +, -, *, /, sqrt is the IEEE-754 operation of Flocq's binary64, i.e. the model's exact result rounded to nearest-even and infinite from 2^1024 on; comparisons, negation and absolute value agree exactly. Division needs a divisor other than -0: C105_division_by_minus_zero_refuted shows that the model (one unsigned zero) differs there. np.log, np.log1p are not covered (not specified by IEEE-754). Logarithms, np.rint and nan_to_num (constant: the largest finite double) are characterised by C105_log, C105_log1p, C105_rint and C105_nan_to_num; the rounding of the logarithms is not modelled."
  },
  {
   "property": "C106",
   "status": "partial",
   "theorems": [
    "C106_isolated",
    "C106_alone",
    "C106_frame",
    "C106_set_errors_copies",
    "C106_shared_counts_refuted",
    "C106_from_binned_data_shares_refuted",
    "C106_half_filled_refuted",
    "C106_wrong_counts_length"
   ],
   "note": "Legacy Histogram and Hist1d with their arrays as references into a heap, in programs of any length with any number of histograms and caller's arrays. C106_isolated: a histogram created with a number of bins whose arrays the program never hands out, overwrites or replaces is at any time what it would be alone with its own fill and scale calls (C106_alone: the histogram of C63), whatever is shared elsewhere; C106_frame: fill and scale write only into the arrays of their histogram, element assignment into its array, and no other call changes any existing array; C106_set_errors_copies. Refuted for shared arrays: bin_counts = a keeps the caller's array, so scale changes it and all histograms it was assigned to, but not their errors; from_binned_data shares the counts in the same way (fill goes into other histograms); the setters check no lengths: a wrong length of bin_errors makes fill raise after counts and entries are updated (C106_half_filled_refuted), a wrong length of bin_counts makes it raise and change nothing. Not modelled: other dtypes than float64, arrays of more dimensions, writing into the array of edges."
  },
  {
   "property": "C107",
   "status": "proved",
   "theorems": [
    "C107_channel",
    "C107_process_indices",
    "C107_reached"
   ],
   "note": "C107_channel and C107_process_indices: any sequence of calls of a method decorated with functools.lru_cache (128 entries): the next call returns the value of the last successful call with the same key iff fewer than 128 different keys were used successfully since, otherwise it does what the undecorated method does. C107_reached: in every state of the program the three caches are those left by such a sequence, so the statements apply to every evaluation."
  },
  {
   "property": "C108",
   "status": "partial",
   "theorems": [
    "C108_fill1",
    "C108_fill2",
    "C108_exact",
    "C108_limits",
    "C108_from_binned",
    "C108_sum_of_squares_refuted",
    "C108_fill1_ex"
   ],
   "note": "C108_fill1 / C108_fill2: with weights of a numpy integer type every outcome (also exceptions) and every attribute but the squared errors is that of the same call with float weights; each bin's squared error is the exact sum of squares less a multiple of 2^bits, and exact iff the type can represent the square of each weight of the bin. C108_exact: all squares fit -> the whole call is the same. C108_limits: the limits per type (int8 11, uint8 15, int16 181, int32 46340, int64 and python lists 3037000499). C108_from_binned: the same for integer bin_errors of from_binned_data. C108_sum_of_squares_refuted: an int32 weight of 50000 gives the squared error -1794967296 and a nan error, uint8 16 gives error 0."
  },
  {
   "property": "C109",
   "status": "partial",
   "theorems": [
    "C109_pearson",
    "C109_pearson_exact_iff",
    "C109_exact",
    "C109_distance_refuted",
    "C109_ex"
   ],
   "note": "C109_pearson: for two arrays of the same integer type and positive expectations, the statistic is the documented chi2 less, for each bin, k 2^bits / expectation, with k = 0 iff the type can represent the square of the deviation (an unsigned type's negative deviation does no harm). C109_pearson_exact_iff: never above the documented value, equal iff all squares fit. C109_exact: then both tests return what they return for floats, zero expectations or uncertainties included. C109_distance_refuted: a statistic of 0 for different arrays, a negative one, an infinite one with non-zero uncertainty."
  },
  {
   "property": "C110",
   "status": "partial",
   "theorems": [
    "C110_rows_refuted",
    "C110_all_free",
    "C110_shape",
    "C110_fixed_refuted",
    "C110_scipy_zero",
    "C110_scipy_refuted"
   ],
   "note": "C110_rows_refuted (assuming what iminuit 1.x documents, skip_fixed=True: Spec_PostFit.skips_fixed, a hypothesis): after every successful iminuit fit, row r of the stored covariance belongs to the r-th parameter that is not fixed, and the matrix is smaller than documented by the number of fixed parameters. C110_all_free: with nothing fixed it is the covariance of all parameters. C110_shape: a covariance of any other rectangular shape makes get_post_fit_bin_uncertainty raise ValueError, after the stack has been drawn. C110_fixed_refuted: hence after any fit with a fixed parameter the post-fit plot with 'propagate' raises ValueError. C110_scipy_zero, C110_scipy_refuted: with scipy and get_hesse=False the covariance is the zero matrix and the plot silently shows bars of height 0. Examples run both from a fit to the plot."
  },
  {
   "property": "C111",
   "status": "partial",
   "theorems": [
    "C111_determined",
    "C111_close_partial",
    "C111_correlation_partial",
    "C111_exact_powers",
    "C111_diagonal_refuted",
    "C111_symmetric_refuted",
    "C111_corr2cov_partial"
   ],
   "note": "Double precision with rounding (Model_FloatCorr), positive variances, sizes far from under- and overflow (moderate). C111_determined: np.matmul's order of additions does not matter. C111_close_partial: every entry within 2^-50 (relative) of the correlation in real numbers; C111_correlation_partial: diagonal 1, |r| <= 1 and symmetry up to 2^-50, 2^-50 and 2^-49, exact zeros. C111_exact_powers: no error at all if the standard deviations are powers of two. C111_diagonal_refuted: a variance of 6 gives a diagonal entry above 1; C111_symmetric_refuted: (2 3; 3 6) gives an asymmetric matrix. C111_corr2cov_partial: corr2cov within 2^-51. Partial: the size conditions."
  },
  {
   "property": "C112",
   "status": "proved",
   "theorems": [
    "C112_fresh",
    "C112_independent",
    "C112_repeatable",
    "C112_other_fits",
    "C112_shared_template_interferes"
   ],
   "note": "Model_MultiFit: any number of models and fitters in one process (Model_Multi and Model_Fitter combined). C112_fresh: all answers (fits with the contents of their Parameters, scans, significances, likelihoods, start values, yields; exceptions too) as in a new process with the same objects. C112_independent: calls that touch nothing of the model and do not configure the fitter change no answer; C112_repeatable: fits without update_templates, scans and evaluations change no answer of anybody; C112_other_fits: fits of models without common template objects change none. C112_shared_template_interferes: a significance of another model sharing a template sets the yield to zero here. Discipline as in C102: no templates or uncertainties after a channel's first evaluation (needed: C39, C61)."
  },
  {
   "property": "C113",
   "status": "proved",
   "theorems": [
    "C113_fresh",
    "C113_independent",
    "C113_experiments",
    "C113_channels_apart",
    "C113_results_kept",
    "C113_linearity_interferes"
   ],
   "note": "Model_MultiToy: any number of models, fitters and toy studies in one process. C113_fresh: after any toy studies all answers (those of C112) are as in a new process with the same objects. C113_independent: calls that touch nothing of the model and do not configure the fitter change no answer; C113_experiments: toy experiments of other models change none, shared templates or not; C113_channels_apart: no channel ever belongs to two models; C113_results_kept: a study's stored results change only by its own calls. C113_linearity_interferes: a linearity test of another model sharing a template leaves the yield at the last tested point here (sharpness of C113_independent). Same discipline as C112."
  },
  {
   "property": "C114",
   "status": "proved",
   "theorems": [
    "C114_fresh",
    "C114_same_objects",
    "C114_independent"
   ],
   "note": "Model_MultiToyAsk: questions to a study (experiments, linearity tests, rows, results, pulls, yields, set_yield, reset, likelihood) in a process with several models. C114_fresh: all answers as in a new process with the same objects; C114_same_objects: two histories that built the same objects get the same answers. C114_independent: after calls (Spec_MultiToyAsk.zkeeps) that change nothing of model k, a study of model k gives the same answers; the histograms drawn have other numbers in the two processes, so the worlds are related up to the contents of the data (Proof_ToyPar). Same discipline as C112, C113; draws and optimizers are given."
  },
  {
   "property": "C115",
   "status": "proved",
   "theorems": [
    "C115_data",
    "C115_repeat",
    "C115_likelihood"
   ],
   "note": "Same process model as C114 (Model_MultiToyAsk). Spec_MultiToyAsk.zkeeps_but_data: every call in between changes nothing of model k, or is add_data of the model, add_data of a channel, or do_experiments of a study of the model. C115_data: a study that is not used in between gives the same answers to all questions except the likelihood itself. C115_repeat: do_experiments and the answers after it are the same even when the same study made experiments in between. C115_likelihood: if the experiments succeed (and there is at least one), all answers after them, including the likelihood, are the same. Proof_ToyPar relates two worlds whose channels have the same templates and, for a set of channel names, data of the same contents; a successful add_data of a toy data set makes that set all channels. Draws and optimizers are given. Linearity tests of the same model in between are excluded: they change its yields (C113_linearity_interferes)."
  }
 ]
}