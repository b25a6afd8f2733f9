{
 "C01": "All constructor calls, all fill histories. scipy's rounding of values next to the last edge is not modelled (exact comparison).",
 "C08": "REFUTED: with weights given as a tuple bin_counts are updated before weights ** 2 raises TypeError. Proved for all other weights (1d and 2d).",
 "C12": "REFUTED: corr2cov multiplies with the variances; it is the inverse of cov2corr only when given standard deviations (proved).",
 "C14": "REFUTED for bins with up = down <> nominal (the sign is +1 for ties). C14_swap_up_down_iff: exactly when: the matrix changes iff some bin has up = down <> nominal and some other bin has up <> down.",
 "C59": "REFUTED for empty data bins (0*log(0) = nan). Value, non-negativity and vanishing only at equality proved for positive data.",
 "C58": "p-value left as an arbitrary function (numerical quadrature is not modelled).",
 "C60": "The Jacobian returned by numdifftools is an arbitrary matrix.",
 "C19": "Errors of a new template equal sqrt(bin_errors_sq) in every bin with non-zero count and error (bins without error get 1e-7 by construction).",
 "C20": "REFUTED: values of a template of an all-zero histogram are nan in every bin (0/0 in fractions).",
 "C21": "np.linalg.inv is a parameter with inv_spec; that positive definite correlation matrices are invertible is proved.",
 "C22": "REFUTED: when np.linalg.inv raises LinAlgError cov_mats, cov_mat and corr have been updated. Proved: a matrix of wrong shape is rejected without effect, covariance matrices never fail.",
 "C25": "REFUTED: Template2d.add_variation raises TypeError for all arguments (calls _add_cov_mat with two arguments).",
 "C26": "REFUTED for non-uniform binning: the variation histograms use equal-width bins. Proved for equally spaced edges.",
 "C10": "REFUTED: from_binned_data keeps the caller's count array and fill adds to it in place (also visible in other histograms made from it). Proved: fills of histograms made by a constructor or projection touch no caller array and no other histogram; fills of from_binned histograms touch only that count array. C10_fill_value: fill leaves the object with exactly the value and outcome of the value model (C01-C06) for every history.",
 "C66": "REFUTED for edge arrays and for the counts given to from_binned_data (kept by reference). Proved for data, weights and errors arrays. C66_created_value: constructors, from_binned_data and projections make objects with exactly the values of the value model for the current argument arrays; failing calls change nothing.",
 "C27": "All call histories. One MultiChannelTemplate; add_template is called through it.",
 "C28": "REFUTED: only number of bins and range are compared, so edges 0,1,4 and 0,2,4 share a channel. Proved: same shape and range in every reachable state; equally spaced histograms share their edges.",
 "C29": "REFUTED for channels: define_channel with an existing name replaces the channel (templates and data are dropped) without an exception. Proved for define_process and for new channel names.",
 "C30": "Positions, names and values for all reachable states, when start values exist, and ValueError otherwise.",
 "C31": "REFUTED: channel 'a' process 'b_c' and channel 'a_b' process 'c' give the same names. Proved: unique if no two templates give the same channel_process string, in particular without underscores in channel names (uniqueness within a channel, of yields, and between yields and nuisance parameters always holds).",
 "C32": "REFUTED in general: Channel.process_indices is lru_cached per channel object, so after add_template following an evaluation the old index list is used. Proved for all histories in which no template is added after the first evaluation or update_parameters (covariances may be added at any time).",
 "C33": "REFUTED in general: with stale process indices update_parameters raises ValueError; a template object used in two channels gets the efficiency of the last one. Proved for histories that add no template after the first use (covariances may be added), with distinct template objects.",
 "C34": "REFUTED: get_yield sums the yield parameters, which contain the efficiencies, so set 8, get 4 with efficiency 1/2. Proved: the returned value is the set value times the sum of the efficiencies (the same value iff these sum to one). C34_get_after_update_partial for histories that add no template after the first use. C34_unknown_process: RuntimeError and no change.",
 "C35": "For all reachable states.",
 "C36": "C36_nll_value: for all histories without add_template/add_cov_mat/add_variation after the first evaluation (the property's quantifier), all x and all views in the domain. C36_views_exist: views exist after all histories with usable arguments. Exact real arithmetic.",
 "C37": "C37_nll_nonneg and C37_zero_at_asimov (update_parameters, generate_asimov_dataset, add_data, nll at the same x: only the constraint terms remain; 0 without constraints). C37_example instantiates it. Hypotheses: expectations 0 or >= 1e-100 because xlogyx treats smaller counts as zero.",
 "C40": "A first constraint on a process adds exactly its term, in all states (partial); undefined process rejected; a second constraint on the same process does not replace the first: its term is counted twice (refuted).",
 "C41": "add_data stores entries one by one: if a later entry is rejected the earlier ones stay (refuted). Partial: exactly the entries before the first bad one are stored, and nothing else changes.",
 "C42": "Asimov and toy; [draws] is what the random generator returned.",
 "C23": "Proved for every history in which the template's histogram is not filled after the template was created (reset() re-reads histogram.bin_counts.sum(), so it restores the original yield only then): C23_reset_partial for Template.reset, C23_reset_parameters_partial for MultiChannelTemplate.reset_parameters. C23_reset_after_fill_refuted: filling the histogram in between changes what reset() restores (1 -> 2).",
 "C38": "C38_current_templates_partial: if templates/covariances are not added after the first evaluation, every evaluation equals the one in a process with empty caches. Refuted in general: C38_template_added_later_refuted (ValueError after adding a template), C38_covariance_added_later_refuted (silently wrong value after add_cov_mat), because of the immutable_cached_property caches.",
 "C39": "C39_no_side_effect for all worlds and all x (even malformed). C39_repeatable_partial: repeatability whatever is evaluated in between, for histories where templates and covariances are not added after the first use; C39_repeatable_128_partial: for all histories whatsoever in which at most 128 channel objects were made (capacity of lru_cache). C39_evicted_refuted: the bound 128 is exact. With 129 channels and a template added after a first evaluation, nll(x) called twice in a row returns 130 and then 131 (the first call uses the stale process indices of a channel and evicts them). So the property is settled: true for at most 128 channel objects or when templates are not added late, false otherwise.",
 "C61": "C61_bin_counts_partial: single channel whose templates were added in the order of the processes, none after the first use. C61_order_refuted: with templates added in another order the channel attributes the yields to the wrong processes (5/4, 7/4 instead of 1, 2).",
 "C15": "id_to_index/param_id_to_index, get_param_value, get_param_error and __getitem__ for every identifier (str, int, bool, other).",
 "C43": "Every sequence of assignments to values, errors, covariance, correlation (C43_lengths); effect or rejection of each single assignment (C43_assignments).",
 "C44": "The keyword arguments with which Minuit is started after any sequence of set_param_fixed/set_param_bounds/release_params calls; Minuit itself is an arbitrary external program.",
 "C45": "REFUTED in general: the lambdas of _create_constraints share the loop variable, only the parameter fixed last is constrained (C45_two_fixed_refuted). Proved if at most one parameter is fixed (C45_one_fixed_partial).",
 "C50": "scipy.optimize.minimize and numdifftools.Hessian are arbitrary terminating programs calling the objective; success, reported failure and exceptions of the optimizer.",
 "C46": "REFUTED in general: (1) set_parameter_bounds with a name and an index for the same parameter: bounds are applied in the order of first use of each identifier (C46_mixed_identifiers_refuted); (2) with scipy only the parameter fixed last is constrained (C46_scipy_refuted). Proved for all histories with iminuit if bounds of a parameter are always set with the same identifier (C46_requests_partial), for scipy if at most one parameter is to be fixed (C46_scipy_requests_partial); unknown identifiers raise ValueError before a fit (C46_unknown_parameter).",
 "C47": "REFUTED: the flag set by TemplateFitter.fix_nui_params() is never read (C47_flag_ignored_refuted, for all histories).",
 "C48": "C48_no_update and C48_update hold in every state and for arbitrary optimizers. C48_update_exactly_128_partial: for ALL histories with at most 128 channel objects a fit with update_templates either raises before it changes anything or has exactly the effect and the exception (if any) of a direct update_parameters call. C48_update_exactly_partial: any number of channels, for histories that add no template after the first use. C48_evicted_refuted: the bound is exact. With 129 channels and a template added after a first evaluation, a successful fit with update_templates updates the templates although update_parameters with the fitted values, called before the fit, raises ValueError (the evaluations of the fit evict the stale entry).",
 "C49": "Fitter level proved for every state and every continuation (C49_results_are_kept). REFUTED at minimizer level: a second minimize() of the same minimizer overwrites the Parameters object of the first result (C49_minimizer_refuted).",
 "C51": "Full. The pool is modelled as an asynchronous system (workers take tasks and step in any order); C51_schedule_independent: same outcome for all worker counts and schedules, termination under every fair schedule, never stuck; C51_scan: what the outcome is. C52_requests_ignored_refuted exhibits a successful scan (non-vacuity).",
 "C52": "Refuted: the scan minimizations fix only the scanned parameter and have no bounds (C52_requests_ignored_refuted, concrete templates); proved part: the scanned parameter is fixed at the scan point in every run, with the exact Minuit arguments (C52_scan_runs_partial). Missing: fixes of nuisance parameters, user fixes and bounds, which the code drops.",
 "C53": "Full, for non-zero uncertainty and finite minimum; for zero uncertainty all values are NaN.",
 "C54": "Any state, arbitrary optimizers. C54_value: the value from the two minimizations of the call (0 if the fitted yield is negative; sqrt(2(m2-m1)), NaN if m2<m1). C54_likelihood_ratio_partial (iminuit): both Minuit runs have the same limits and objective function; the second fixes the same parameters and the yield and starts at the same point with yield 0; a non-negative real number if both runs find the minimum of their domain. Restrictions: histories without add_template after first use, no template object used twice, p's yield not fixed by the user. False for scipy: only the yield is constrained in the second run (C54_scipy_refuted, any state) so that a significance of NaN results in C54_scipy_nan_refuted although both minimizations are exact on what they were told. ex_C54_C55: a call with result sqrt 2.",
 "C55": "False: whenever the fitted yield is not negative the call leaves the yields of all templates of the process at 0 (C55_yield_lost_refuted, any reachable state; ex_C54_C55: 4 before, 0 after). C55_other_objects_partial: for every outcome nothing else changes.",
 "C56": "For all optimizers and random numbers (different in every toy fit). C56_experiments: one call; do_experiments returns iff every experiment has a successful toy fit among at most max_tries, with exactly n rows, and at most n*max_tries toy fits; otherwise it raises RuntimeError after max_tries RuntimeErrors of one experiment (or the other exception) and all accessors raise RuntimeError. C56_history: for all histories of calls the accessible results are those of the last study if it returned, otherwise the accessors raise. C56_before: before any study. C56_columns: get_toy_results. Excluded in C56_history: linearity tests with n_exp = 0 (they raise IndexError but leave the object marked as fitted; no experiment fails there). ex_C56_C57_C67, ex_C56_fails: studies with n arbitrary. C56_no_columns: unknown process raises ValueError, a study of zero experiments IndexError.",
 "C57": "C57_value: the pull is (value - Y)/uncertainty with Y the result of get_yield(p) when the pulls are requested, for all histories between study and request. C57_pulls_partial: directly after the study Y is the generated yield times the sum of the efficiencies of the process, so the pulls are as documented if the sum is 1. Otherwise false: C57_pulls_refuted, for every configuration: if all fits find exactly the generated yield y with uncertainty e, all pulls are y(1-E)/e instead of 0; ex_C56_C57_C67 is a concrete study with E = 1/2.",
 "C67": "Any state, arbitrary optimizers, random numbers and outcomes. Linearity tests do change template parameters (C68).",
 "C68": "Any history in which no template object is used twice; n_exp > 0; test that returned. Means and standard deviations are computed over finite fitted values (np.mean/np.std otherwise give NaN or inf). n_points = 1 uses lo. ex_C68: the hypotheses are met for all n_points and n_exp.",
 "C63": "Legacy Histogram for every history of successful fill and scale calls: contents, entries and squared errors of each bin against the list of events with all later factors applied; calls with matching weights succeed; scale commutes with fill; relative errors of bins with content unchanged for positive factors.",
 "C69": "False of the code: np.nan comparison. Every bin without events has the relative error NaN (0/0), for every history (_refuted). Partial: bins with content have sqrt(sum of w^2)/content, never 0, so the 1e-7 branch is unreachable for them.",
 "C70": "Proved for all histories in which no weights are given as a tuple (_partial). Refuted with a tuple: fill raises TypeError after it has changed the counts and before it clears the caches.",
 "C62": "Proved for all histories, datasets with data in every bin and parameters (C62_value_partial, C62_views_exist). With an empty bin the documented value is false: nan_to_num(nan=inf) turns 0*log(0) into +inf and the likelihood is -inf (C62_empty_bin_refuted, for every container and parameter vector). The penalty uses the matrices at the creation (C74).",
 "C64": "reset_parameters of template and container restores yields, nuisance parameters and errors after every history without in-place writes into the templates' own arrays; without that restriction it is refuted (the original array is handed out by nui_param_values). update_parameters gives every template its own block (C64_update_gives_blocks).",
 "C65": "Refuted: the property returns itself, every evaluation ends with RecursionError.",
 "C71": "Refuted for nuisance parameters: np.split returns views, so writing into the caller's array changes the parameters; yields are copies.",
 "C72": "Proved for parameters with one nuisance value per bin; after update_parameters with blocks of another length x0 and param_names have different lengths (refuted). Value at x0 on the Asimov dataset proved if all its bins are positive (an empty bin gives -inf, C62).",
 "C73": "Invariant over all histories, and the effect of add_template in both cases.",
 "C74": "Refuted: the block matrix is computed in the constructor; difference of the two likelihoods at every x, and a concrete history with difference 1/3.",
 "C75": "Refuted: arrays of length T + T*m are accepted for every m, and a rejected update has already replaced the yields.",
 "C76": "C76_template_plot_partial proves the claim for numpy edges. It is false for edges given as a python list: plot_on raises TypeError before drawing (C76_list_edges_refuted). Matplotlib is modelled by the calls made; what a histogram, bar or point shows is spelled out in Spec_Plot.v.",
 "C77": "Proved for channels whose templates (and data) have the same array edges (C77_stacked_partial). False in general: add_template accepts templates with other edges of the same range (C28), and plot_stacked_on puts their contents into wrong bins (C77_edges_refuted). Two-dimensional channels raise NotImplementedError and channels without templates TypeError, drawing nothing (C77_two_dimensional, C77_no_template).",
 "C78": "Proved for models with one channel to which one template per process was added in the order of the processes (C78_propagate_partial, C78_scale_partial; the Jacobian is what numdifftools returned). False for every model with a second channel that has a template: ValueError after the stack was drawn (C78_several_channels_refuted). C78_unknown_option: UnboundLocalError.",
 "C79": "Colours and colour bars are not modelled.",
 "C84": "Refuted: three counts with the edges of two bins are accepted and kept, so shape and bin_counts disagree; C84_kept_as_given_partial says exactly when they agree.",
 "C80": "E q i is the sum of squared errors that channel i contributes to process q; the hypothesis says what `errors` of each template shows, C19 when it exists.",
 "C81": "Refuted: line 269 subtracts from the method `values` instead of its result, so plot_on raises for every template. Partial: the histogram drawn before shows the expectation.",
 "C82": "`expects` (Spec_LegacyPlot) gives values and errors of a template as formulas in counts, covariance matrices, yield and nuisance parameters.",
 "C83": "Rounding is `nearest` of Spec_Data (ties to even). The draws are universally quantified.",
 "C85": "Refuted: numpy cannot add floats to an array of integers in place; if only the errors are integers the counts have already changed. Partial: with float arrays all fills behave as in Model_Hist (C01-C09).",
 "C86": "Refuted: with integer errors `+=` raises TypeError after the list of covariances has grown, and the minimal variance 1e-14 is stored as 0. Partial: with float errors everything is as in Model_Template (C21, C22, C26).",
 "C87": "Refuted: an array assigned to params is kept by reference and its integer type too. Partial: for histories in which each array is given to at most one template and is not an array of integers (polite_history) the property holds. C87_accepted: exactly which assignments are accepted, and the exception otherwise.",
 "C88": "Proved for all histories with at most 128 channel objects (capacity of lru_cache): the cached matrix of the first evaluation does not fit the longer block of nuisance parameters. Example: C88_example.",
 "C89": "Proved for all histories with at most 128 channel objects: the exact value in the situation that refutes C38. Example C89_example: value 3 (2 + 2/3 with the current covariance).",
 "C90": "REFUTED: arrays have no hash, so the documented argument always raises TypeError; with tuples the lru_cache returns the same (mutable) array object until 128 other keys were used, so changes of the function's state are not seen and writes of a caller are. Proved: right as long as the function's state is unchanged and nobody wrote to a returned array; and exactly the stored array otherwise (fewer than 128 operations later).",
 "C91": "Model_Float rounds every operation to binary64 (Flocq's round to nearest even with subnormals; no overflow, NaN, infinities). C91_agrees_with_reals: under the condition the real-number model of C01-C09 gives the same numbers.",
 "C92": "REFUTED that order and batches do not matter at all (2^53 and two weights 3/4). Proved: the error bound; for the squared errors if no squared weight underflows.",
 "C93": "REFUTED without a condition: 4 bins between 1 and the next double have two equal edges. Proved: limits exact, edges non-decreasing and close for ranges that are not denormally small and at most 2^50 bins; strictly increasing if the bins are wider than 2^-47 of the largest limit.",
 "C94": "REFUTED as an exact equality even for efficiencies with sum 1 (three channels, value 7). Proved: the error bound, unless a product underflows.",
 "C95": "REFUTED: scipy compares with the upper edge after rounding, so 1 + 1e-7 is counted in a histogram on [0, 1]; older scipy releases lose 1 - 1e-7. Proved: identical to the exact comparison of C01-C09 if no event is closer to the upper edge than 1/100000 of the smallest bin width (1D and 2D, both variants); in general (newer variant) some of those events above the edge are treated as if on it, nothing else changes.",
 "C96": "REFUTED as exact reproduction: 1 and 48 events give a first bin of 1 - 2^-53. Proved: error bounds for values, sum and reproduction (2^-51 relative, independent of the number of bins, for exactly summable counts).",
 "C97": "REFUTED as an equality: the root is taken and squared, 2 events give a squared error of 2 + 2^-51. Proved: relative error at most 2^-51.",
 "C98": "REFUTED: the comparison distinguishes tuples and lists: a range given as a list on one side is refused, and a channel with its numbers of bins in a list wraps them in a tuple and accepts nothing. Proved: never accepts other numbers; with tuples accepts exactly the same numbers.",
 "C99": "REFUTED in its first part: after a test that returned, every template in use has nominal parameters and the tested process the yield of the last point (C99_parameters_lost_refuted); with an unknown process RuntimeError comes only after all parameters were reset and the results of the study dropped (C99_unknown_process_refuted). Proved for every outcome (C99_other_objects_partial): only template parameters, channel data and new objects change, and the other studies keep their results. ex_C99 is a concrete test that changes a yield from 4 to 1.",
 "C100": "Found by mutation l21 (linear sum of errors in the container broke no theorem). Real arithmetic; the sum of the varied contents must not be 0 (otherwise division by zero, see C20 for the new templates).",
 "C101": "quad is taken as the exact improper integral (quadrature error not modelled). Proved for every dof >= 1 by the recursion in steps of two and the Gaussian integral (Proof_Gauss.v). Partial: the likelihood test gives nan for empty data bins (C59), so C101_cowan_partial needs positive data.",
 "C102": "Refuted part: one template object in two models couples them (C102_shared_template_refuted); proved: the caches shared by all channels never give a wrong value in programs that complete a channel before its first evaluation (otherwise: C38, C39), independence for calls that change no object of the model, and the value.",
 "C103": "Refuted part: a channel taken from a model accepts a template of a process the model does not know, and then every evaluation of its likelihood raises (C103_unknown_process_refuted, C103_unknown_process_raises).",
 "C104": "Refuted parts: a missing covariance matrix, a singular Hesse matrix and get_hesse=False leave values, errors and covariance that do not belong together (C104_no_matrix_refuted, C104_singular_hesse_refuted, C104_without_hesse_refuted).",
 "C105": "For all pairs of doubles (including infinities, NaN, subnormals, both zeros): each of the model's operations +, -, *, /, sqrt is the IEEE-754 operation of Flocq's binary64, i.e. the model's exact result rounded to nearest-even and infinite from 2^1024 on; comparisons, negation and absolute value agree exactly. Division needs a divisor other than -0: C105_division_by_minus_zero_refuted shows that the model (one unsigned zero) differs there. np.log, np.log1p are not covered (not specified by IEEE-754). Logarithms, np.rint and nan_to_num (constant: the largest finite double) are characterised by C105_log, C105_log1p, C105_rint and C105_nan_to_num; the rounding of the logarithms is not modelled.",
 "C106": "Legacy Histogram and Hist1d with their arrays as references into a heap, in programs of any length with any number of histograms and caller's arrays. C106_isolated: a histogram created with a number of bins whose arrays the program never hands out, overwrites or replaces is at any time what it would be alone with its own fill and scale calls (C106_alone: the histogram of C63), whatever is shared elsewhere; C106_frame: fill and scale write only into the arrays of their histogram, element assignment into its array, and no other call changes any existing array; C106_set_errors_copies. Refuted for shared arrays: bin_counts = a keeps the caller's array, so scale changes it and all histograms it was assigned to, but not their errors; from_binned_data shares the counts in the same way (fill goes into other histograms); the setters check no lengths: a wrong length of bin_errors makes fill raise after counts and entries are updated (C106_half_filled_refuted), a wrong length of bin_counts makes it raise and change nothing. Not modelled: other dtypes than float64, arrays of more dimensions, writing into the array of edges.",
 "C107": "C107_channel and C107_process_indices: any sequence of calls of a method decorated with functools.lru_cache (128 entries): the next call returns the value of the last successful call with the same key iff fewer than 128 different keys were used successfully since, otherwise it does what the undecorated method does. C107_reached: in every state of the program the three caches are those left by such a sequence, so the statements apply to every evaluation.",
 "C108": "C108_fill1 / C108_fill2: with weights of a numpy integer type every outcome (also exceptions) and every attribute but the squared errors is that of the same call with float weights; each bin's squared error is the exact sum of squares less a multiple of 2^bits, and exact iff the type can represent the square of each weight of the bin. C108_exact: all squares fit -> the whole call is the same. C108_limits: the limits per type (int8 11, uint8 15, int16 181, int32 46340, int64 and python lists 3037000499). C108_from_binned: the same for integer bin_errors of from_binned_data. C108_sum_of_squares_refuted: an int32 weight of 50000 gives the squared error -1794967296 and a nan error, uint8 16 gives error 0.",
 "C109": "C109_pearson: for two arrays of the same integer type and positive expectations, the statistic is the documented chi2 less, for each bin, k 2^bits / expectation, with k = 0 iff the type can represent the square of the deviation (an unsigned type's negative deviation does no harm). C109_pearson_exact_iff: never above the documented value, equal iff all squares fit. C109_exact: then both tests return what they return for floats, zero expectations or uncertainties included. C109_distance_refuted: a statistic of 0 for different arrays, a negative one, an infinite one with non-zero uncertainty.",
 "C110": "C110_rows_refuted (assuming what iminuit 1.x documents, skip_fixed=True: Spec_PostFit.skips_fixed, a hypothesis): after every successful iminuit fit, row r of the stored covariance belongs to the r-th parameter that is not fixed, and the matrix is smaller than documented by the number of fixed parameters. C110_all_free: with nothing fixed it is the covariance of all parameters. C110_shape: a covariance of any other rectangular shape makes get_post_fit_bin_uncertainty raise ValueError, after the stack has been drawn. C110_fixed_refuted: hence after any fit with a fixed parameter the post-fit plot with 'propagate' raises ValueError. C110_scipy_zero, C110_scipy_refuted: with scipy and get_hesse=False the covariance is the zero matrix and the plot silently shows bars of height 0. Examples run both from a fit to the plot.",
 "C111": "Double precision with rounding (Model_FloatCorr), positive variances, sizes far from under- and overflow (moderate). C111_determined: np.matmul's order of additions does not matter. C111_close_partial: every entry within 2^-50 (relative) of the correlation in real numbers; C111_correlation_partial: diagonal 1, |r| <= 1 and symmetry up to 2^-50, 2^-50 and 2^-49, exact zeros. C111_exact_powers: no error at all if the standard deviations are powers of two. C111_diagonal_refuted: a variance of 6 gives a diagonal entry above 1; C111_symmetric_refuted: (2 3; 3 6) gives an asymmetric matrix. C111_corr2cov_partial: corr2cov within 2^-51. Partial: the size conditions.",
 "C112": "Model_MultiFit: any number of models and fitters in one process (Model_Multi and Model_Fitter combined). C112_fresh: all answers (fits with the contents of their Parameters, scans, significances, likelihoods, start values, yields; exceptions too) as in a new process with the same objects. C112_independent: calls that touch nothing of the model and do not configure the fitter change no answer; C112_repeatable: fits without update_templates, scans and evaluations change no answer of anybody; C112_other_fits: fits of models without common template objects change none. C112_shared_template_interferes: a significance of another model sharing a template sets the yield to zero here. Discipline as in C102: no templates or uncertainties after a channel's first evaluation (needed: C39, C61).",
 "C113": "Model_MultiToy: any number of models, fitters and toy studies in one process. C113_fresh: after any toy studies all answers (those of C112) are as in a new process with the same objects. C113_independent: calls that touch nothing of the model and do not configure the fitter change no answer; C113_experiments: toy experiments of other models change none, shared templates or not; C113_channels_apart: no channel ever belongs to two models; C113_results_kept: a study's stored results change only by its own calls. C113_linearity_interferes: a linearity test of another model sharing a template leaves the yield at the last tested point here (sharpness of C113_independent). Same discipline as C112.",
 "C114": "Model_MultiToyAsk: questions to a study (experiments, linearity tests, rows, results, pulls, yields, set_yield, reset, likelihood) in a process with several models. C114_fresh: all answers as in a new process with the same objects; C114_same_objects: two histories that built the same objects get the same answers. C114_independent: after calls (Spec_MultiToyAsk.zkeeps) that change nothing of model k, a study of model k gives the same answers; the histograms drawn have other numbers in the two processes, so the worlds are related up to the contents of the data (Proof_ToyPar). Same discipline as C112, C113; draws and optimizers are given.",
 "C115": "Same process model as C114 (Model_MultiToyAsk). Spec_MultiToyAsk.zkeeps_but_data: every call in between changes nothing of model k, or is add_data of the model, add_data of a channel, or do_experiments of a study of the model. C115_data: a study that is not used in between gives the same answers to all questions except the likelihood itself. C115_repeat: do_experiments and the answers after it are the same even when the same study made experiments in between. C115_likelihood: if the experiments succeed (and there is at least one), all answers after them, including the likelihood, are the same. Proof_ToyPar relates two worlds whose channels have the same templates and, for a set of channel names, data of the same contents; a successful add_data of a toy data set makes that set all channels. Draws and optimizers are given. Linearity tests of the same model in between are excluded: they change its yields (C113_linearity_interferes)."
}