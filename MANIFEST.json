{
 "claims": [
  {
   "property": "C01",
   "status": "proved",
   "theorems": [
    "C01_inverse_in_bounds",
    "C01_inverse_defined",
    "C01_categorical_inverse_in",
    "C01_float32_refuted",
    "C01_int8_refuted",
    "C01_nan_refuted"
   ],
   "note": "float64; results whose un-warped value is NaN, float32 dtype and integer dtypes too narrow for the bounds are excluded, each with a counterexample"
  },
  {
   "property": "C02",
   "status": "proved",
   "theorems": [
    "C02_categorical_round_trip",
    "C02_string_bool_refuted"
   ],
   "note": "float64; string encoding requires categories whose text parses back; counterexample for booleans"
  },
  {
   "property": "C03",
   "status": "proved",
   "theorems": [
    "C03_integer_round_trip",
    "C03_integer_log_round_trip",
    "C03_integer_log_round_trip_float"
   ],
   "note": "float64 for the uniform prior, bounds up to 2^50 when normalised; log-uniform in exact arithmetic, and in float64 from 1 up to 2^39 given an accurate log10 and pow (a correctly rounded library meets the assumption)"
  },
  {
   "property": "C04",
   "status": "proved",
   "theorems": [
    "C04_real_round_trip",
    "C04_identity_round_trip",
    "C04_real_round_trip_float",
    "C04_float_exact_refuted"
   ],
   "note": "exact arithmetic for every prior; float64: exact for the identity, otherwise within a stated distance, given an accurate log10 and pow for log-uniform priors; the exact round trip is refuted for scaled dimensions (0.1 in Real(-5, 10))"
  },
  {
   "property": "C05",
   "status": "proved",
   "theorems": [
    "C05_space_round_trip",
    "C05_space_round_trip_exact",
    "C05_space_round_trip_float"
   ],
   "note": "float64: exact for dimensions whose own round trip is exact, within the tolerance of C04 for the others; exact arithmetic for all"
  },
  {
   "property": "C06",
   "status": "proved",
   "theorems": [
    "C06_samples_in_space"
   ],
   "note": "float64, arbitrary generator respecting its documented support"
  },
  {
   "property": "C07",
   "status": "partial",
   "theorems": [
    "C07_warped_in_bounds_partial",
    "C07_warped_in_bounds_exact_partial",
    "C07_label_bounds_refuted",
    "C07_integer_log_bounds_refuted",
    "C07_real_log_bounds_refuted"
   ],
   "note": "false as stated for label encodings and un-normalised log-uniform dimensions; proved for the others"
  },
  {
   "property": "C08",
   "status": "proved",
   "theorems": [
    "C08_distance_metric",
    "C08_distance_outside",
    "C08_distance_float",
    "C08_triangle_float",
    "C08_triangle_float_refuted"
   ],
   "note": "a metric in exact arithmetic; in float64, with finite bounds, symmetric, positive and zero for equal points only, within the stated roundings of the exact distance; the triangle inequality then holds up to these roundings only (refuted exactly)"
  },
  {
   "property": "C09",
   "status": "proved",
   "theorems": [
    "C09_point_validation",
    "C09_point_rejected",
    "C09_batch_validation",
    "C09_integer_fraction_refuted",
    "C09_membership_length_refuted"
   ],
   "note": "a str or None coordinate of a numeric dimension raises TypeError instead; Integer dimensions accept fractions"
  },
  {
   "property": "C10",
   "status": "partial",
   "theorems": [
    "C10_space_equality_partial",
    "C10_length_refuted",
    "C10_prior_refuted",
    "C10_symmetry_refuted"
   ],
   "note": "false as stated: lengths are ignored, Integer priors and transforms are ignored, the tolerance is asymmetric"
  },
  {
   "property": "C100",
   "status": "proved",
   "theorems": [
    "C100"
   ],
   "note": "Exact arithmetic; the assumption on fmin_l_bfgs_b (hypothesis descends) is in the statement, as are those on np.argsort and the random generator. Which of the three gp_hedge chooses is C23. The point of the warped space is mapped back to the space, which rounds integers and picks categories."
  },
  {
   "property": "C101",
   "status": "proved",
   "theorems": [
    "C101_certain",
    "C101_values",
    "C101_spread_refuted"
   ],
   "note": "Exact arithmetic; assumes of the Cholesky routines what C81 proves of them. C101_spread_refuted shows that the unit cannot be left out with normalize_y."
  },
  {
   "property": "C102",
   "status": "proved",
   "theorems": [
    "C102",
    "C102_singly",
    "C102_gp_minimize",
    "C102_any",
    "C102_minimize_any"
   ],
   "note": "Exact arithmetic: with floats sums depend on the order. For other surrogates C102_any needs the premise order_free. C102_singly relates observations told one by one to the setting of C102. For the minimisers: callbacks that never stop, and values given with the points (otherwise the objective is called in another order)."
  },
  {
   "property": "C103",
   "status": "proved",
   "theorems": [
    "C103",
    "C103_float",
    "C103_narrow_refuted",
    "C103_initial_refuted"
   ],
   "note": "The model says whether the warning is issued, not whether Python's filters show it. C103_float assumes fewer than 2^40 dimensions for the absence of false alarms and points of the space (C16, C09). The refutations show the limits stated in the property. Warnings during ask(n), issued by the copies of the optimizer, are not covered."
  },
  {
   "property": "C104",
   "status": "proved",
   "theorems": [
    "C104_boxes",
    "C104_float"
   ],
   "note": "on the design before it is warped into the space. C104_boxes: exact arithmetic. C104_float: float64, up to rounding."
  },
  {
   "property": "C11",
   "status": "proved",
   "theorems": [
    "C11_lookup_name",
    "C11_lookup_index",
    "C11_lookup_list",
    "C11_names"
   ],
   "note": ""
  },
  {
   "property": "C12",
   "status": "proved",
   "theorems": [
    "C12_two_ints",
    "C12_two_numbers",
    "C12_with_prior",
    "C12_with_base",
    "C12_categories",
    "C12_dimension",
    "C12_base_refuted",
    "C12_prior_name_refuted"
   ],
   "note": "bases only with the log-uniform prior and only ints; numpy integers not modelled"
  },
  {
   "property": "C13",
   "status": "proved",
   "theorems": [
    "C13_history",
    "C13_aligned",
    "C13_result",
    "C13_mismatched_refuted",
    "C13_batch_scalar_refuted"
   ],
   "note": "batches must come with one value per point; a batch with a different number of values, or with one number, is accepted by the code and breaks the alignment (refutations)"
  },
  {
   "property": "C14",
   "status": "proved",
   "theorems": [
    "C14_best_observation"
   ],
   "note": "float64 and exact arithmetic (any numbers obeying the order laws)"
  },
  {
   "property": "C15",
   "status": "proved",
   "theorems": [
    "C15_never_worse"
   ],
   "note": ""
  },
  {
   "property": "C16",
   "status": "proved",
   "theorems": [
    "C16_suggestions_in_space"
   ],
   "note": "float64; surrogate, acquisition values, L-BFGS and generator outputs arbitrary; the initial design is assumed to lie in the space (gen_ok), which C93 proves of the generators of the library"
  },
  {
   "property": "C17",
   "status": "proved",
   "theorems": [
    "C17_design",
    "C17_initial_phase",
    "C17_no_fit",
    "C17_surrogate_phase",
    "C17_unfitted_ask_refuted"
   ],
   "note": "with fit=False the last initial tell leaves the optimizer without suggestion"
  },
  {
   "property": "C18",
   "status": "proved",
   "theorems": [
    "C18_ask_changes_nothing",
    "C18_ask_repeats"
   ],
   "note": ""
  },
  {
   "property": "C19",
   "status": "proved",
   "theorems": [
    "C19_batch_size",
    "C19_batch_stable",
    "C19_rejects",
    "C19_initial_batch"
   ],
   "note": ""
  },
  {
   "property": "C20",
   "status": "partial",
   "theorems": [
    "C20_min_max_lies_partial",
    "C20_mean_lies_partial",
    "C20_per_second_refuted"
   ],
   "note": "false with per-second acquisition: the minimum is taken over values and log times together; proved for the others (mean in exact arithmetic)"
  },
  {
   "property": "C21",
   "status": "proved",
   "theorems": [
    "C21_rejected_unchanged"
   ],
   "note": "except a batch told with one number, which is accepted (C13_batch_scalar_refuted)"
  },
  {
   "property": "C22",
   "status": "proved",
   "theorems": [
    "C22_recent_models",
    "C22_newest_last",
    "C22_empty_queue_refuted"
   ],
   "note": "a queue of size 0 makes the first fit fail"
  },
  {
   "property": "C23",
   "status": "proved",
   "theorems": [
    "C23_weights",
    "C23_softmax",
    "C23_float",
    "C23_choice_and_gains"
   ],
   "note": "weights in exact arithmetic, and in float64 for finite gains with a sum of 1 up to 2^-50, given that exp(0) is 1 and exp neither decreases nor is negative; the rest for every arithmetic"
  },
  {
   "property": "C24",
   "status": "proved",
   "theorems": [
    "C24_run_by_hand",
    "C24_by_hand_run",
    "C24_get_result"
   ],
   "note": ""
  },
  {
   "property": "C25",
   "status": "proved",
   "theorems": [
    "C25_copy_same",
    "C25_copy_suggests",
    "C25_queue_refuted"
   ],
   "note": ""
  },
  {
   "property": "C26",
   "status": "partial",
   "theorems": [
    "C26_log_times_partial",
    "C26_incumbent_refuted"
   ],
   "note": "the incumbent is the minimum over values and log times together, so the last clause is false"
  },
  {
   "property": "C27",
   "status": "proved",
   "theorems": [
    "C27_evaluations",
    "C27_exactly_n_calls",
    "C27_negative_refuted",
    "C27_dummy_refuted"
   ],
   "note": "with a negative n_initial_points, or fewer calls than given points in dummy_minimize, more than n_calls evaluations are made"
  },
  {
   "property": "C28",
   "status": "proved",
   "theorems": [
    "C28_given_points_first"
   ],
   "note": ""
  },
  {
   "property": "C29",
   "status": "proved",
   "theorems": [
    "C29_callbacks",
    "C29_any_outcome"
   ],
   "note": "callbacks that modify the result they are shown are not modelled"
  },
  {
   "property": "C30",
   "status": "proved",
   "theorems": [
    "C30_minimise_by_hand",
    "C30_by_hand_minimise"
   ],
   "note": ""
  },
  {
   "property": "C31",
   "status": "partial",
   "theorems": [
    "C31_dummy_succeeds_partial",
    "C31_dummy_unfitted",
    "C31_one_point_refuted",
    "C31_many_dimensions_refuted"
   ],
   "note": "false for x0 given as one point"
  },
  {
   "property": "C32",
   "status": "proved",
   "theorems": [
    "C32_delta_y",
    "C32_delta_y_exact"
   ],
   "note": ""
  },
  {
   "property": "C33",
   "status": "proved",
   "theorems": [
    "C33_delta_x",
    "C33_delta_x_exact"
   ],
   "note": ""
  },
  {
   "property": "C34",
   "status": "proved",
   "theorems": [
    "C34_hollow"
   ],
   "note": ""
  },
  {
   "property": "C35",
   "status": "partial",
   "theorems": [
    "C35_threshold",
    "C35_threshold_minimise",
    "C35_deadline",
    "C35_in_time",
    "C35_durations_partial",
    "C35_durations_refuted"
   ],
   "note": "the recorded times leave out the time between the two clock readings of a step"
  },
  {
   "property": "C36",
   "status": "partial",
   "theorems": [
    "C36_checkpoint_partial",
    "C36_torn_refuted"
   ],
   "note": "false during the write: the file is truncated first"
  },
  {
   "property": "C37",
   "status": "proved",
   "theorems": [
    "C37_without_objective",
    "C37_no_objective",
    "C37_no_specs_refuted"
   ],
   "note": "results without specs (from Optimizer) raise TypeError"
  },
  {
   "property": "C38",
   "status": "partial",
   "theorems": [
    "C38_batches",
    "C38_bounded",
    "C38_total_partial",
    "C38_total_refuted",
    "C38_zero_iterations"
   ],
   "note": "the budget is proved; total_iterations is wrong for a single dict, and a first space with 0 iterations makes fit raise UnboundLocalError"
  },
  {
   "property": "C39",
   "status": "proved",
   "theorems": [
    "C39_own_scores"
   ],
   "note": "cross-validation is an arbitrary scoring function"
  },
  {
   "property": "C40",
   "status": "proved",
   "theorems": [
    "C40_roundtrip",
    "C40_names",
    "C40_dimensions",
    "C40_back",
    "C40_missing",
    "C40_any_order"
   ],
   "note": ""
  },
  {
   "property": "C41",
   "status": "partial",
   "theorems": [
    "C41_keywords_partial",
    "C41_length",
    "C41_unnamed",
    "C41_same_name_refuted"
   ],
   "note": "false when two dimensions have the same name"
  },
  {
   "property": "C42",
   "status": "partial",
   "theorems": [
    "C42_halton",
    "C42_hammersly",
    "C42_lhs",
    "C42_grid_partial",
    "C42_grid_short_refuted",
    "C42_grid_memory_refuted",
    "C42_sobol",
    "C42_halton_float",
    "C42_hammersly_float",
    "C42_reach",
    "C42_lhs_float",
    "C42_grid_float_partial",
    "C42_sobol_float"
   ],
   "note": "in exact arithmetic and in float64; Grid in one dimension returns fewer points, and for many dimensions raises MemoryError; Sobol up to 40 dimensions and fewer than 2^30 points"
  },
  {
   "property": "C43",
   "status": "proved",
   "theorems": [
    "C43_stratified",
    "C43_float",
    "C43_float_exact_refuted"
   ],
   "note": "C43_stratified: exact arithmetic. C43_float: float64, at most 2^45 points; C43_float_exact_refuted shows that the allowance for rounding is needed. The statistics behind the criteria are arbitrary functions."
  },
  {
   "property": "C44",
   "status": "proved",
   "theorems": [
    "C44_range",
    "C44_distinct",
    "C44_strata",
    "C44_float",
    "C44_float_distinct",
    "C44_float_strata"
   ],
   "note": "C44_range, C44_distinct, C44_strata: exact arithmetic, aligned or not. C44_float, C44_float_distinct, C44_float_strata: float64, within [0, 1), distinct, and in the parts up to 2^-45, as long as the base times the index is at most 2^45 (2^44 for distinctness)."
  },
  {
   "property": "C45",
   "status": "proved",
   "theorems": [
    "C45_first_primes",
    "C45_sieve"
   ],
   "note": ""
  },
  {
   "property": "C46",
   "status": "proved",
   "theorems": [
    "C46_strata",
    "C46_range",
    "C46_distinct",
    "C46_shift",
    "C46_history",
    "C46_design",
    "C46_limit",
    "C46_in_vain_refuted",
    "C46_float",
    "C46_float_strata"
   ],
   "note": "exact arithmetic, and float64 without randomize, where C46_float shows the numbers to be exact; k up to 29: the 2^30th point is never delivered (C46_limit); histories of calls for 1 to 40 dimensions: two calls in vain for more dimensions change the sequence; skip below 2^30; with randomize the stratified points are shifted modulo 1"
  },
  {
   "property": "C47",
   "status": "partial",
   "theorems": [
    "C47_grid_partial",
    "C47_no_repetition_partial",
    "C47_borders_refuted"
   ],
   "note": "default borders, two dimensions or more, exact arithmetic; with both borders included points are repeated"
  },
  {
   "property": "C48",
   "status": "proved",
   "theorems": [
    "C48_halton",
    "C48_hammersly",
    "C48_lhs",
    "C48_grid",
    "C48_exception_refuted",
    "C48_sobol"
   ],
   "note": "whenever points are returned; after an exception the dimensions stay normalised"
  },
  {
   "property": "C49",
   "status": "proved",
   "theorems": [
    "C49_pi",
    "C50_ei",
    "C49_lcb",
    "C49_negated"
   ],
   "note": "over the reals, with the exact normal distribution function and density"
  },
  {
   "property": "C50",
   "status": "proved",
   "theorems": [
    "C50_ei",
    "C49_pi",
    "C50_mean",
    "C50_std",
    "C50_per_second",
    "C50_certain_improvement_refuted"
   ],
   "note": "for positive predicted deviation; at deviation 0 the value is 0 even where improvement is certain"
  },
  {
   "property": "C51",
   "status": "proved",
   "theorems": [
    "C51_lcb",
    "C51_ei",
    "C51_pi",
    "C51_eips",
    "C51_pips",
    "C51_flat",
    "C51_isolated_refuted"
   ],
   "note": "over the reals; any regressor returning the gradients of its mean and deviation; positive deviation, or zero around the point; at an isolated point of zero deviation the value is not continuous and the zeros returned are no gradient, refuted"
  },
  {
   "property": "C52",
   "status": "partial",
   "theorems": [
    "C52_gradient",
    "C52_total",
    "C52_training_point_refuted",
    "C52_products_refuted"
   ],
   "note": "exact arithmetic, all kernel expressions: whatever row gradient_x returns is the gradient where the kernel is smooth; missing: products of three factors and multiples of Matern kernels with nu = 0.5 raise, and at a training point nu = 0.5 has no derivative"
  },
  {
   "property": "C53",
   "status": "proved",
   "theorems": [
    "C53_similarity",
    "C53_total",
    "C53_number",
    "C53_set",
    "C53_gradient_iso",
    "C53_gradient_aniso"
   ],
   "note": "exact arithmetic"
  },
  {
   "property": "C54",
   "status": "partial",
   "theorems": [
    "C54_gradients_partial",
    "C54_total",
    "C54_single",
    "C54_dot_product_refuted"
   ],
   "note": "exact arithmetic; all kernels and training sets; the std gradient is wrong for DotProduct kernels, refuted with a fitted regressor; where the std is at most 1e-8 the gradient returned is 0 and nothing is claimed"
  },
  {
   "property": "C55",
   "status": "partial",
   "theorems": [
    "C55_first_fit_partial",
    "C55_no_noise",
    "C55_refit_refuted"
   ],
   "note": "any tuning that keeps the form of the kernel; holds for the first fit of a kernel without white noise; a second fit of the same object adds a second term and predictions then include noise, refuted"
  },
  {
   "property": "C56",
   "status": "proved",
   "theorems": [
    "C56_total_variance",
    "C56_total",
    "C56_mixture"
   ],
   "note": "exact arithmetic; the trees are arbitrary, the mean over trees is scikit-learn's"
  },
  {
   "property": "C57",
   "status": "partial",
   "theorems": [
    "C57_std_partial",
    "C57_total",
    "C57_negative_refuted",
    "C57_cover_refuted"
   ],
   "note": "exact arithmetic, arbitrary quantile models; non-negative only where the quantile models do not cross, refuted otherwise; the interval mean +- std need not cover the quantile predictions, refuted"
  },
  {
   "property": "C58",
   "status": "proved",
   "theorems": [
    "C58_convergence",
    "C58_trace",
    "C58_regret",
    "C58_regret_grows",
    "C58_regret_refuted"
   ],
   "note": "the trace in float64, means and regrets in exact arithmetic; the regret falls when a true_minimum above some value is given, refuted"
  },
  {
   "property": "C59",
   "status": "proved",
   "theorems": [
    "C59_1D",
    "C59_2D",
    "C59_points",
    "C59_plotted",
    "C59_total"
   ],
   "note": "exact arithmetic; the model is an arbitrary function"
  },
  {
   "property": "C60",
   "status": "partial",
   "theorems": [
    "C60_random_sampling",
    "C60_expected_partial",
    "C60_integer_refuted"
   ],
   "note": "expected_minimum: Real dimensions, contract of the minimiser assumed; for Integer dimensions the point returned may be fractional, refuted"
  },
  {
   "property": "C61",
   "status": "proved",
   "theorems": [
    "C61_suggestion_can_be_told"
   ],
   "note": "the observation is recorded; fitting the surrogate afterwards may still fail"
  },
  {
   "property": "C62",
   "status": "proved",
   "theorems": [
    "C62_best_candidate",
    "C62_per_second"
   ],
   "note": "no NaN observations; with per-second acquisition the least observed value is the least of the values and the log times together"
  },
  {
   "property": "C63",
   "status": "proved",
   "theorems": [
    "C63_result_in_space",
    "C63_result_is_best"
   ],
   "note": ""
  },
  {
   "property": "C64",
   "status": "proved",
   "theorems": [
    "C64_boxes",
    "C64_float"
   ],
   "note": "C64_boxes: exact arithmetic. C64_float: float64, up to rounding."
  },
  {
   "property": "C65",
   "status": "proved",
   "theorems": [
    "C65_maximin",
    "C65_ratio"
   ],
   "note": "any arithmetic with the usual order; the statistics are arbitrary functions; the very first design is drawn but not compared"
  },
  {
   "property": "C66",
   "status": "proved",
   "theorems": [
    "C66_drawn",
    "C66_low_bound",
    "C66_inner_value"
   ],
   "note": "exact arithmetic; whole points of a space; also shows that a normalised uniform Integer gives its bounds half the share of inner values"
  },
  {
   "property": "C67",
   "status": "proved",
   "theorems": [
    "C67_prior",
    "C67_training"
   ],
   "note": "exact arithmetic; the Cholesky routines are any that solve symmetric linear systems (lin_ok), which C81_solves proves of the modelled ones"
  },
  {
   "property": "C68",
   "status": "proved",
   "theorems": [
    "C68_lcb",
    "C68_ei",
    "C68_pi"
   ],
   "note": "exact arithmetic; kernels without DotProduct, differentiable at the point; std above 1e-8"
  },
  {
   "property": "C69",
   "status": "partial",
   "theorems": [
    "C69_partial",
    "C69_refuted"
   ],
   "note": "float64; a true_minimum of 0 is taken for none and not drawn, refuted"
  },
  {
   "property": "C70",
   "status": "proved",
   "theorems": [
    "C70_labels"
   ],
   "note": "float64; at most 2^53 categories"
  },
  {
   "property": "C71",
   "status": "proved",
   "theorems": [
    "C71_histogram"
   ],
   "note": "float64; the counting of numeric bins is matplotlib's and not modelled"
  },
  {
   "property": "C72",
   "status": "partial",
   "theorems": [
    "C72_partial",
    "C72_refuted"
   ],
   "note": "float64; all dimensions shown and none constant; otherwise the kind of a dimension is looked up by the index of the panel, refuted with an AttributeError"
  },
  {
   "property": "C73",
   "status": "proved",
   "theorems": [
    "C73_objective",
    "C73_asked",
    "C73_constant",
    "C73_2D",
    "C73_refused"
   ],
   "note": "exact arithmetic; the model is an arbitrary function that predicts something; the points averaged over and the minimum lie in the space"
  },
  {
   "property": "C74",
   "status": "proved",
   "theorems": [
    "C74_optimizer",
    "C74_minimizer"
   ],
   "note": "any arithmetic and surrogate; minimisers with an estimator and without a bound on the number of models"
  },
  {
   "property": "C75",
   "status": "partial",
   "theorems": [
    "C75_picture",
    "C75_total",
    "C75_observations_partial",
    "C75_counts",
    "C75_observations_refuted",
    "C75_given_refuted",
    "C75_first_refuted",
    "C75_categories_refuted"
   ],
   "note": "exact arithmetic, dimensions warped to one number; the observations shown are those of the model only for the last model or with n_random_starts and no x0: otherwise some are missing, refuted; one-hot Categorical dimensions and titles with string categories fail, refuted; the user's xi and kappa are not recorded by the minimisers, so the default ones are drawn"
  },
  {
   "property": "C76",
   "status": "proved",
   "theorems": [
    "C76_best_search"
   ],
   "note": "The surrogate, the acquisition function, the search routine and numpy's argsort are parameters; argsort is assumed to sort lists of numbers. The acquisition values are assumed to be numbers where order is claimed. Several acquisition functions at once (gp_hedge) are not covered."
  },
  {
   "property": "C77",
   "status": "proved",
   "theorems": [
    "C77_boxes",
    "C77_recurrence"
   ],
   "note": "Exact arithmetic; the coordinates are multiples of 2^-30 and exact in float64 (C46_float). Any odd initial direction numbers give these properties; C88 depends on the actual ones. Randomised points are shifted ones (C46_shift)."
  },
  {
   "property": "C78",
   "status": "partial",
   "theorems": [
    "C78_kernel_partial",
    "C78_periodic_refuted",
    "C78_exponent_refuted"
   ],
   "note": "exact arithmetic; all kernels but ExpSineSquared on several features and Exponentiation with an exponent that is not a natural number, for which the claim is refuted"
  },
  {
   "property": "C79",
   "status": "proved",
   "theorems": [
    "C79_covariance"
   ],
   "note": "exact arithmetic; kernels as in C78; the Cholesky routines are any that solve symmetric linear systems (lin_ok), which C81_solves proves of the modelled ones, the tuning to keep hyper-parameters in range"
  },
  {
   "property": "C80",
   "status": "proved",
   "theorems": [
    "C80_bench1",
    "C80_time",
    "C80_bench2",
    "C80_bench3",
    "C80_bench4",
    "C80_bench5",
    "C80_branin",
    "C80_branin_value",
    "C80_hart6",
    "C80_hart6_attained"
   ],
   "note": "Everything over the exact reals. The number of local minima of hart6 and that its global minimum is taken at a single point are not claimed; it is located to within 0.001 in every coordinate."
  },
  {
   "property": "C81",
   "status": "proved",
   "theorems": [
    "C81_exists",
    "C81_solves",
    "C81_fit",
    "C81_repeated"
   ],
   "note": "Exact arithmetic; scipy's Cholesky routines are modelled (Cholesky.v); the tuning of hyper-parameters is any function keeping them in range."
  },
  {
   "property": "C82",
   "status": "proved",
   "theorems": [
    "C82",
    "C82_per_second"
   ],
   "note": "Exact arithmetic; hyper-parameter tuning and the Cholesky routines are arbitrary functions."
  },
  {
   "property": "C83",
   "status": "proved",
   "theorems": [
    "C83",
    "C83_open",
    "C83_copy",
    "C83_make",
    "C83_gaussian_process",
    "C83_forest",
    "C83_boosted",
    "C83_dummy_refuted",
    "C83_trees_per_second_refuted"
   ],
   "note": "Exact arithmetic. What the estimator, minimizer and generator have to do is the predicate `dependable`, proved of Gaussian processes with normalize_y=False, of forests and of boosted quantile trees; fmin_l_bfgs_b is assumed to stay within its bounds."
  },
  {
   "property": "C84",
   "status": "proved",
   "theorems": [
    "C84_by_name",
    "C84_answered",
    "C84_refused",
    "C84_dummy",
    "C84_generator",
    "C84_generator_random",
    "C84_generator_refused",
    "C84_kernel",
    "C84_per_second_refuted"
   ],
   "note": "ASCII spellings; set_params with nested names (a__b) is not modelled. The last sentence is the refuted theorem."
  },
  {
   "property": "C85",
   "status": "proved",
   "theorems": [
    "C85_auto",
    "C85_refused",
    "C85_per_second_refuted"
   ],
   "note": "The last sentence is the refuted theorem."
  },
  {
   "property": "C86",
   "status": "proved",
   "theorems": [
    "C86_untouched",
    "C86_others",
    "C86_gaussian_process",
    "C86_shared_refuted"
   ],
   "note": "The unrestricted claim is false; C86_shared_refuted shows two optimizers that share a dimension."
  },
  {
   "property": "C87",
   "status": "proved",
   "theorems": [
    "C87_meaning",
    "C87_set",
    "C87_offered",
    "C87_refused",
    "C87_restore",
    "C87_by_type",
    "C87_refused_refuted"
   ],
   "note": "The last sentence is the refuted theorem."
  },
  {
   "property": "C88",
   "status": "proved",
   "theorems": [
    "C88_cells",
    "C88_halves_refuted"
   ],
   "note": "Exact arithmetic (multiples of 2^-30). The last sentence is the refuted theorem. Sobol's properties A and A'."
  },
  {
   "property": "C89",
   "status": "proved",
   "theorems": [
    "C89_entries",
    "C89_refused",
    "C89_dropped_refuted",
    "C89_documented_refuted"
   ],
   "note": "On the value that YAML parsing returns; Integer dimensions with fractional bounds, bounds given as two strings and dtypes that are not names are not modelled. The two exceptions are the refuted theorems."
  },
  {
   "property": "C90",
   "status": "proved",
   "theorems": [
    "C90_forest",
    "C90_boosted"
   ],
   "note": "Exact arithmetic; how trees are grown and boosted is an arbitrary function, for forests with nonnegative impurities. EIps and PIps are not covered."
  },
  {
   "property": "C91",
   "status": "proved",
   "theorems": [
    "C91",
    "C91_gp",
    "C91_forest",
    "C91_gbrt"
   ],
   "note": "Exact arithmetic. gp_minimize with normalize_y=False (the default regressor sets it to True) and fmin_l_bfgs_b assumed to stay within its bounds; dummy_minimize is C30. With normalize_y=True: C92."
  },
  {
   "property": "C92",
   "status": "proved",
   "theorems": [
    "C92",
    "C92_copy",
    "C92_gaussian_process",
    "C92_kept",
    "C92_minimize",
    "C92_gp"
   ],
   "note": "Exact arithmetic; fmin_l_bfgs_b assumed to stay within its bounds. What a regressor with normalize_y=True does when all observations agree is not modelled: it divides by a standard deviation of 0."
  },
  {
   "property": "C93",
   "status": "proved",
   "theorems": [
    "C93_named_points",
    "C93_named_suggestions",
    "C93_named_dummy",
    "C93_given_points"
   ],
   "note": "float64. Up to 100 dimensions and 2^35 points for Halton and Hammersly, 40 dimensions and fewer than 2^30 points for Sobol, 2^45 points for Lhs whose statistics of candidate designs are assumed to exist; Grid from two dimensions on, with at most 10^9 numbers in a layout."
  },
  {
   "property": "C94",
   "status": "proved",
   "theorems": [
    "C94_order",
    "C94_unit"
   ],
   "note": "Exact arithmetic. Hyper-parameter tuning is an arbitrary function; for the order of the observations it is assumed not to depend on that order, for the unit it sees the normalised observations."
  },
  {
   "property": "C95",
   "status": "proved",
   "theorems": [
    "C95_reports",
    "C95_plain",
    "C95_provided_refuted",
    "C95_evaluated_refuted"
   ],
   "note": "Lines are kept as the numbers and words they contain; rounding to four digits is not modelled. dummy_minimize is not covered (it passes n_calls as the number of initial points). The last two sentences are the refuted theorems."
  },
  {
   "property": "C96",
   "status": "proved",
   "theorems": [
    "C96_batch",
    "C96_refused",
    "C96_history"
   ],
   "note": "the optimizer has as many values as points (kept by all documented calls, C13); the points are told as a list of lists; for any regressor, acquisition function and random generator"
  },
  {
   "property": "C97",
   "status": "proved",
   "theorems": [
    "C97",
    "C97_any",
    "C97_margin_refuted",
    "C97_hedge_refuted"
   ],
   "note": "Exact arithmetic; acq_optimizer \"lbfgs\" and per-second acquisition functions are not covered; a regressor whose observations all agree is not modelled (it divides by 0). The last sentence is the two refuted theorems."
  },
  {
   "property": "C98",
   "status": "proved",
   "theorems": [
    "C98",
    "C98_make",
    "C98_generators",
    "C98_raw_refuted"
   ],
   "note": "Exact arithmetic. Integer and categorical dimensions keep their unit. A user's own generator of initial points must return the same points in both units (hypothesis gen_alike). The last sentence is the refuted theorem."
  },
  {
   "property": "C99",
   "status": "proved",
   "theorems": [
    "C99_continues",
    "C99_no_worse",
    "C99_succeeds",
    "C99_per_second_refuted"
   ],
   "note": "C99_continues and C99_no_worse hold in any number format (C99_no_worse: values that are no NaN); C99_succeeds over the reals and not for dummy_minimize. The last sentence is the refuted theorem (a witness). Reading the result back from a file is not part of it (C36 and C37 treat dump)."
  }
 ]
}