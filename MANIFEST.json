{
 "claims": [
  {
   "property": "C01",
   "status": "proved",
   "theorems": [
    "C01_history"
   ],
   "note": "Entries are minima of the recorded costs; C16 relates recorded to returned costs."
  },
  {
   "property": "C02",
   "status": "partial",
   "theorems": [
    "C02_best_ind_partial",
    "C02_best_ind_refuted"
   ],
   "note": "The code violates this: when no later generation is accepted, best_ind is an integer position in the first generation (eda.py:174). Proved: it is a solution with the reported cost exactly when some later generation was accepted, otherwise the position of such a solution."
  },
  {
   "property": "C03",
   "status": "partial",
   "theorems": [
    "C03_minimum_partial",
    "C03_minimum_refuted"
   ],
   "note": "Holds for ftol = 0; refuted for the default ftol, where positive costs may drift upwards (see C05 for the bound)."
  },
  {
   "property": "C04",
   "status": "proved",
   "theorems": [
    "C04_nonpositive",
    "C04_never_increases"
   ],
   "note": ""
  },
  {
   "property": "C05",
   "status": "proved",
   "theorems": [
    "C05_drift_bound"
   ],
   "note": ""
  },
  {
   "property": "C06",
   "status": "proved",
   "theorems": [
    "C06_budget",
    "C06_every"
   ],
   "note": "1 + Z.to_nat (max_iter - 1) is max(1, max_iter)."
  },
  {
   "property": "C07",
   "status": "proved",
   "theorems": [
    "C07_early_stop"
   ],
   "note": ""
  },
  {
   "property": "C08",
   "status": "partial",
   "theorems": [
    "C08_stagnation_partial",
    "C08_positive_plateau",
    "C08_stagnation_refuted"
   ],
   "note": "Holds when ftol = 0 or costs are non-positive; refuted (for every run) on positive plateaus."
  },
  {
   "property": "C09",
   "status": "partial",
   "theorems": [
    "C09_nfev_partial",
    "C09_nfev_error",
    "C09_sizes",
    "C09_exactly",
    "C09_nfev_refuted"
   ],
   "note": "Holds exactly when init_data, if given, has size_gen rows (C09_exactly, for every optimiser, given that a library model returns as many rows as it is asked for); the error is otherwise exactly the difference."
  },
  {
   "property": "C10",
   "status": "proved",
   "theorems": [
    "C10_selection",
    "C10_selection_any",
    "C10_selection_every",
    "C10_training",
    "C10_training_every"
   ],
   "note": "The _every theorems also cover runs that raise, up to where they stop. C10_selection: runs in which all generations share one dtype, rows kept exactly. C10_selection_any: every run; an integer row joined with float rows is copied as floats."
  },
  {
   "property": "C11",
   "status": "proved",
   "theorems": [
    "C10_selection",
    "C10_selection_any",
    "C10_selection_every"
   ],
   "note": "Second and third conjuncts."
  },
  {
   "property": "C12",
   "status": "proved",
   "theorems": [
    "C10_selection",
    "C10_selection_any",
    "C10_selection_every"
   ],
   "note": "Last conjunct."
  },
  {
   "property": "C13",
   "status": "proved",
   "theorems": [
    "C13_prior_state",
    "C13_stock"
   ],
   "note": "Any optimiser whose model forgets what it held (memoryless); C13_stock: every stock optimiser without archive, where for the algorithms whose learner is external (pybnesian, scipy) that learner is assumed to forget too."
  },
  {
   "property": "C14",
   "status": "partial",
   "theorems": [
    "C14_memory_refuted",
    "C14_memory_partial"
   ],
   "note": "Refuted: the archive survives minimize. Proved: nothing but the archive does."
  },
  {
   "property": "C15",
   "status": "partial",
   "theorems": [
    "C15_parallel_partial",
    "C15_pool_every",
    "C15_needs",
    "C15_parallel_refuted",
    "C15_parallel_values_refuted"
   ],
   "note": "Holds for side-effect free cost functions returning one numeric type when generations have at least cpu_count() individuals; refuted otherwise. C15_pool_every and C15_needs: with fewer individuals than cores no parallel run returns."
  },
  {
   "property": "C16",
   "status": "partial",
   "theorems": [
    "C16_recorded_floats_partial",
    "C16_recorded_ints_partial",
    "C16_recorded_any",
    "C16_order",
    "C16_answered",
    "C16_recorded_refuted"
   ],
   "note": "Holds when the cost function always returns floats or always ints; refuted for a mixture, for which C16_recorded_any says what is recorded."
  },
  {
   "property": "C17",
   "status": "proved",
   "theorems": [
    "C17_elite_every",
    "C17_best_every",
    "C17_noise_free",
    "C17_noise_free_any",
    "C17_noise_free_every",
    "C17_copy_exact",
    "C17_big_int_refuted",
    "C10_selection"
   ],
   "note": "C17_elite_every and C17_best_every: every run, mixed dtypes and mixed costs included; C17_big_int_refuted shows why the copies are only the same numbers up to 2^53."
  },
  {
   "property": "C18",
   "status": "partial",
   "theorems": [
    "C18_noise_fits_partial",
    "C18_noise_does_not_fit",
    "C18_needs",
    "C18_too_few",
    "C18_noise_refuted"
   ],
   "note": "Refuted when init_data has too few rows; holds, and only holds, when at least truncation_length candidates are available. C18_needs and C18_too_few say so for whole runs: with fewer than truncation_length - 1 rows of init_data (size_gen - 1 for PBIL) no call returns, nor without init_data when alpha makes truncation_length exceed size_gen + 1."
  },
  {
   "property": "C19",
   "status": "proved",
   "theorems": [
    "C19_lengths"
   ],
   "note": ""
  },
  {
   "property": "C20",
   "status": "proved",
   "theorems": [
    "C20_base",
    "C20_accepted",
    "C20_refused"
   ],
   "note": "The converse for the stock constructors (valid arguments are accepted) depends on the arguments of their own initialisers, so the equivalence is stated for EDA itself."
  },
  {
   "property": "C21",
   "status": "partial",
   "theorems": [
    "C21_pm_partial",
    "C21_init_partial",
    "C21_pm_refuted",
    "C21_init_refuted"
   ],
   "note": "Refuted: an object of the wrong width is refused but stays assigned."
  },
  {
   "property": "C22",
   "status": "proved",
   "theorems": [
    "C22_display",
    "C22_silent"
   ],
   "note": ""
  },
  {
   "property": "C23",
   "status": "proved",
   "theorems": [
    "C23_nan_first",
    "C23_nan_ignored",
    "C10_selection"
   ],
   "note": ""
  },
  {
   "property": "C24",
   "status": "partial",
   "theorems": [
    "C24_settings_partial",
    "C24_result",
    "C24_settings_refuted"
   ],
   "note": "Refuted for the alpha of PBIL (reported as 1) and the elite_factor of SPEDA and MultivariateKEDA (reported as alpha)."
  },
  {
   "property": "C25",
   "status": "partial",
   "theorems": [
    "C25_round_trip_partial",
    "C25_round_trip_refuted"
   ],
   "note": "Refuted: read_settings raises KeyError on every exported dictionary. Proved: with the two keys respelt it rebuilds the same optimiser."
  },
  {
   "property": "C26",
   "status": "partial",
   "theorems": [
    "C26_combinations_partial",
    "C26_others_partial",
    "C26_combinations_refuted",
    "C26_one_variable_refuted"
   ],
   "note": "Decided for every accepted pair. Refuted for init 2 (all models) and for pm 3 with one variable (all inits): no call with max_iter > 1 returns. Every other pair (C26_others_partial): a call returns, or raises what numpy multivariate_normal (init 3 or pm 3) or the network library (pm 4) raised; pm 1 or 2 with init 1 or 4 always returns."
  },
  {
   "property": "C27",
   "status": "proved",
   "theorems": [
    "C27_bounds",
    "C27_made",
    "C27_frequency",
    "C27_empty"
   ],
   "note": ""
  },
  {
   "property": "C28",
   "status": "proved",
   "theorems": [
    "C28_binary"
   ],
   "note": ""
  },
  {
   "property": "C29",
   "status": "proved",
   "theorems": [
    "C29_never_frozen",
    "C29_draws_exist"
   ],
   "note": "Data sets of up to 2^53 rows of bits."
  },
  {
   "property": "C30",
   "status": "proved",
   "theorems": [
    "C30_frequencies"
   ],
   "note": "Columns of strings or of integers; the stored probabilities are the rounded quotients, the quotients sum to 1, and up to 2^22 rows the sampler accepts them."
  },
  {
   "property": "C31",
   "status": "proved",
   "theorems": [
    "C31_declared"
   ],
   "note": "possible_values of a variable: strings only or integers only, with frequencies in [0, 1] (hypothesis cats_ok)."
  },
  {
   "property": "C32",
   "status": "proved",
   "theorems": [
    "C32_extinct"
   ],
   "note": "Hypotheses on possible_values as for C31; C127_first extends this to all later generations."
  },
  {
   "property": "C33",
   "status": "proved",
   "theorems": [
    "C33_deviation",
    "C33_exact",
    "C33_new"
   ],
   "note": "Bound in binary64 for every summation order; mean and deviation in exact arithmetic."
  },
  {
   "property": "C34",
   "status": "partial",
   "theorems": [
    "C34_rule_partial",
    "C34_previous_mean_refuted",
    "C34_deviation",
    "C34_too_few"
   ],
   "note": "Refuted for the documented previous mean: the code uses the mean of the training data. Training data order is C10_training."
  },
  {
   "property": "C35",
   "status": "proved",
   "theorems": [
    "C35_covariance",
    "C35_exact",
    "C35_one_variable_refuted"
   ],
   "note": ""
  },
  {
   "property": "C36",
   "status": "partial",
   "theorems": [
    "C36_spread_refuted",
    "C36_semidefinite_partial",
    "C36_converged_refuted"
   ],
   "note": "Refuted: the diagonal is the standard deviation and is not clamped; a constant column gives 0 and an indefinite matrix, and so do two deviations whose product is below the square of lower_factor. The partial theorem says when the matrix is positive semidefinite."
  },
  {
   "property": "C37",
   "status": "proved",
   "theorems": [
    "C37_gaussian",
    "C37_discrete",
    "C37_networks",
    "C37_kernel"
   ],
   "note": "Network models and UniKDE for arbitrary libraries."
  },
  {
   "property": "C38",
   "status": "proved",
   "theorems": [
    "C38_means",
    "C38_solvable"
   ],
   "note": "Exact arithmetic; the order of the network is the topological order pybnesian returns."
  },
  {
   "property": "C39",
   "status": "partial",
   "theorems": [
    "C39_covariances_partial",
    "C39_exactly",
    "C39_refuted"
   ],
   "note": "Refuted when two parents of a node are correlated: the variance drops their covariance. Proved for networks where no two parents share an ancestor; C39_exactly characterises when the matrix is right."
  },
  {
   "property": "C40",
   "status": "partial",
   "theorems": [
    "C40_symmetric_partial",
    "C40_exact_arithmetic",
    "C40_refuted"
   ],
   "note": "The matrix is always symmetric, but the test also fires on overflow."
  },
  {
   "property": "C41",
   "status": "partial",
   "theorems": [
    "C41_inference_partial",
    "C41_refuted"
   ],
   "note": "Proved for networks without diamonds, also for singular evidence covariances; refuted on the triangle."
  },
  {
   "property": "C42",
   "status": "proved",
   "theorems": [
    "C42_fixed"
   ],
   "note": ""
  },
  {
   "property": "C43",
   "status": "partial",
   "theorems": [
    "C43_labels_partial",
    "C43_stable_orders",
    "C43_refuted"
   ],
   "note": "Refuted for set orders that depend on insertion order (hash collisions)."
  },
  {
   "property": "C44",
   "status": "proved",
   "theorems": [
    "C44_lists",
    "C44_learned"
   ],
   "note": "C44_learned: the model of the wrappers, after any earlier calls of learn."
  },
  {
   "property": "C45",
   "status": "proved",
   "theorems": [
    "C45_archive",
    "C45_every"
   ],
   "note": "C45_every: also the runs that raise."
  },
  {
   "property": "C46",
   "status": "partial",
   "theorems": [
    "C46_bounded_partial",
    "C46_bounded_refuted",
    "C46_float_refuted"
   ],
   "note": "Holds for integers l >= 1; l = 0 keeps everything, and a float l cannot be used."
  },
  {
   "property": "C47",
   "status": "partial",
   "theorems": [
    "C47_noise_refuted",
    "C47_any_intensity",
    "C47_only_draws"
   ],
   "note": "Refuted: every training row is an evaluated individual, whatever the noise; any two intensities give the same run, and apart from the random numbers used up the run is the one without noise."
  },
  {
   "property": "C48",
   "status": "proved",
   "theorems": [
    "C48_uniform",
    "C48_half_open_refuted"
   ],
   "note": ""
  },
  {
   "property": "C49",
   "status": "partial",
   "theorems": [
    "C49_bounds_partial",
    "C49_bounds_refuted"
   ],
   "note": "Only the first generation respects the bounds."
  },
  {
   "property": "C50",
   "status": "partial",
   "theorems": [
    "C50_samples_partial",
    "C50_thirds_refuted"
   ],
   "note": "Refuted for tables whose sum is off by more than the sampler tolerance."
  },
  {
   "property": "C51",
   "status": "proved",
   "theorems": [
    "C51_choice",
    "C51_declared",
    "C51_learned",
    "C51_learned_total"
   ],
   "note": "Categories that are all strings or all integers within a column."
  },
  {
   "property": "C52",
   "status": "partial",
   "theorems": [
    "C52_width_partial",
    "C52_width_refuted"
   ],
   "note": "Refuted for UniBinGenInit with a vector of another length."
  },
  {
   "property": "C53",
   "status": "partial",
   "theorems": [
    "C53_flag_refuted"
   ],
   "note": "Refuted: the flag is inverted."
  },
  {
   "property": "C54",
   "status": "partial",
   "theorems": [
    "C54_bounds_partial",
    "C54_bounds_refuted"
   ],
   "note": "Exact success condition proved; refuted in general."
  },
  {
   "property": "C55",
   "status": "partial",
   "theorems": [
    "C55_partial",
    "C55_any_arcs",
    "C55_negative",
    "C55_refuted",
    "C55_names_refuted"
   ],
   "note": "Refuted: an index in -n..-1 wraps round instead of raising; proved for arcs over 0..n-1, and C55_any_arcs describes every other call."
  },
  {
   "property": "C56",
   "status": "proved",
   "theorems": [
    "C56_positions",
    "C56_repeated",
    "C56_empty"
   ],
   "note": "Up to 2^53 variables."
  },
  {
   "property": "C57",
   "status": "partial",
   "theorems": [
    "C57_ids_partial",
    "C57_ids_refuted"
   ],
   "note": "Refuted for BN and UniKDE, both 7; all other pairs differ."
  },
  {
   "property": "C58",
   "status": "proved",
   "theorems": [
    "C58_one_max"
   ],
   "note": ""
  },
  {
   "property": "C59",
   "status": "partial",
   "theorems": [
    "C59_zeros",
    "C59_schaffer",
    "C59_one_variable_partial",
    "C59_elliptic_refuted"
   ],
   "note": "Exact real arithmetic. Proved for two or more variables (with the exact set of minimisers) and for one variable except the elliptic function, which divides by zero there."
  },
  {
   "property": "C60",
   "status": "partial",
   "theorems": [
    "C60_exactly",
    "C60_partial",
    "C60_refuted"
   ],
   "note": "Refuted: the value is (1+10^6) times the sum of squares. The formula holds only at 0; the minimum is right."
  },
  {
   "property": "C61",
   "status": "partial",
   "theorems": [
    "C61_exactly",
    "C61_partial",
    "C61_refuted"
   ],
   "note": "Refuted: the product is initialised and combined differently; exact set of agreement given; the minimum is right."
  },
  {
   "property": "C62",
   "status": "partial",
   "theorems": [
    "C62_exactly",
    "C62_formula",
    "C62_partial",
    "C62_refuted"
   ],
   "note": "Refuted for two or more variables: the constant is subtracted once per variable inside the loop."
  },
  {
   "property": "C63",
   "status": "partial",
   "theorems": [
    "C63_partial",
    "C63_schwefel",
    "C63_above",
    "C63_off",
    "C63_refuted",
    "C63_below_refuted"
   ],
   "note": "Proved for functions 1-4, 6-9, 12 on two or more variables; 10 and 11 stay strictly above and within d*2e-5 of their bias at the shift; refuted for 5, 13, 14, 16 and for one variable."
  },
  {
   "property": "C64",
   "status": "partial",
   "theorems": [
    "C64_partial",
    "C64_refuted"
   ],
   "note": "Refuted for one variable; proved for every other accepted dimension."
  },
  {
   "property": "C65",
   "status": "proved",
   "theorems": [
    "C65_umdac"
   ],
   "note": ""
  },
  {
   "property": "C66",
   "status": "proved",
   "theorems": [
    "C66_umdad"
   ],
   "note": ""
  },
  {
   "property": "C67",
   "status": "proved",
   "theorems": [
    "C67_progress",
    "C67_reported_best"
   ],
   "note": ""
  },
  {
   "property": "C68",
   "status": "proved",
   "theorems": [
    "C10_training",
    "C68_drawn",
    "C68_drawn_every"
   ],
   "note": "The delta is quantified outside the iterations; C68_drawn adds that it is a matrix the generator returned for the configured scale; C68_drawn_every covers runs that raise."
  },
  {
   "property": "C69",
   "status": "proved",
   "theorems": [
    "C69_nonstring"
   ],
   "note": ""
  },
  {
   "property": "C70",
   "status": "proved",
   "theorems": [
    "C70_no_bounds"
   ],
   "note": ""
  },
  {
   "property": "C71",
   "status": "proved",
   "theorems": [
    "C71_umdacat"
   ],
   "note": ""
  },
  {
   "property": "C72",
   "status": "proved",
   "theorems": [
    "C72_pbil"
   ],
   "note": ""
  },
  {
   "property": "C73",
   "status": "proved",
   "theorems": [
    "C73_shapes"
   ],
   "note": ""
  },
  {
   "property": "C74",
   "status": "proved",
   "theorems": [
    "C74_emna_one"
   ],
   "note": ""
  },
  {
   "property": "C75",
   "status": "proved",
   "theorems": [
    "C75_plot",
    "C75_given"
   ],
   "note": ""
  },
  {
   "property": "C76",
   "status": "proved",
   "theorems": [
    "C76_arrays",
    "C76_results",
    "C76_values"
   ],
   "note": "Over a memory model of the loop (Alias.v) that shares buffers as numpy does; C76_values shows that the value model of the other theorems describes it."
  },
  {
   "property": "C77",
   "status": "partial",
   "theorems": [
    "C77_partial",
    "C77_refuted"
   ],
   "note": "Proved for parallel evaluation (workers receive copies); refuted for serial evaluation, where the cost function receives a view of the generation."
  },
  {
   "property": "C78",
   "status": "proved",
   "theorems": [
    "C78_learned",
    "C78_declared"
   ],
   "note": "Rounding of numpy's cumulative sums included."
  },
  {
   "property": "C79",
   "status": "proved",
   "theorems": [
    "C79_bits"
   ],
   "note": ""
  },
  {
   "property": "C80",
   "status": "proved",
   "theorems": [
    "C80_sampled",
    "C80_order",
    "C80_names"
   ],
   "note": "For arbitrary libraries returning tables with distinct column names."
  },
  {
   "property": "C81",
   "status": "proved",
   "theorems": [
    "C81_gbn",
    "C81_spbn_kdebn",
    "C81_bn",
    "C81_round_trip"
   ],
   "note": ""
  },
  {
   "property": "C82",
   "status": "partial",
   "theorems": [
    "C82_partial",
    "C82_gaussian_refuted",
    "C82_categorical_refuted",
    "C82_network_refuted",
    "C82_exactly",
    "C82_categorical_exactly"
   ],
   "note": "Holds for UniBin, UniKDE and for networks given a data set of the wrong width. Refuted for UniGauss, AdaptUniGauss and UniCategorical, which keep the variables learned before the failing one (C82_exactly says which), and for networks whose structure search raises."
  },
  {
   "property": "C83",
   "status": "partial",
   "theorems": [
    "C83_partial",
    "C83_refuted",
    "C83_exactly",
    "C83_few_rows"
   ],
   "note": "UniKDE builds one joint estimate: proved for one variable, refuted for more; C83_exactly gives the data sets that work."
  },
  {
   "property": "C84",
   "status": "proved",
   "theorems": [
    "C84_few_rows"
   ],
   "note": ""
  },
  {
   "property": "C85",
   "status": "proved",
   "theorems": [
    "C85_order",
    "C85_transformed",
    "C85_sort",
    "C85_tolerance_matters"
   ],
   "note": "C85_tolerance_matters shows that the zero tolerance is needed."
  },
  {
   "property": "C86",
   "status": "proved",
   "theorems": [
    "C86_watching",
    "C86_exceptions",
    "C86_stops"
   ],
   "note": ""
  },
  {
   "property": "C87",
   "status": "proved",
   "theorems": [
    "C87_float",
    "C87_completes",
    "C87_categories"
   ],
   "note": "EBNA and BOA are one constructor in the model; they differ in the score passed to the network library."
  },
  {
   "property": "C88",
   "status": "proved",
   "theorems": [
    "C88_emna",
    "C88_shapes"
   ],
   "note": ""
  },
  {
   "property": "C89",
   "status": "proved",
   "theorems": [
    "C89_latin"
   ],
   "note": "For post_process=True, which by C53 turns post-processing off."
  },
  {
   "property": "C90",
   "status": "partial",
   "theorems": [
    "C90_bounds_partial",
    "C90_order",
    "C90_bounds_refuted"
   ],
   "note": "LatinHypercubeSampling(2, -0.1, 0.2) can return 0.20000000000000004; proved: the lower bound, and the upper bound as recomputed in double arithmetic."
  },
  {
   "property": "C91",
   "status": "partial",
   "theorems": [
    "C91_default_partial",
    "C91_default_refuted"
   ],
   "note": "With one variable the default call always raises ValueError; proved for two or more."
  },
  {
   "property": "C92",
   "status": "partial",
   "theorems": [
    "C92_lists_partial",
    "C92_gauss_partial",
    "C92_multigauss_partial",
    "C92_categories",
    "C92_array_refuted",
    "C92_vector_refuted"
   ],
   "note": "Bound arrays and vectors of equal but wrong length are accepted and fail when sampled."
  },
  {
   "property": "C93",
   "status": "proved",
   "theorems": [
    "C93_chain",
    "C93_order",
    "C93_chain_every",
    "C93_order_every",
    "C93_called_every",
    "C93_asked_every"
   ],
   "note": "The _every theorems cover runs that return and runs that raise; C93_asked_every also covers the calls of a generation whose evaluation was cut short. A call that raises is not recorded."
  },
  {
   "property": "C94",
   "status": "proved",
   "theorems": [
    "C94_umdac",
    "C94_pbil",
    "C94_umdad",
    "C94_emna",
    "C94_umdacat"
   ],
   "note": "UMDAcat: for training sets of at most 2^22 rows."
  },
  {
   "property": "C95",
   "status": "proved",
   "theorems": [
    "C95_unit",
    "C95_exact",
    "C95_other_factors"
   ],
   "note": ""
  },
  {
   "property": "C96",
   "status": "partial",
   "theorems": [
    "C96_readable_partial",
    "C96_glued",
    "C96_set_apart_refuted"
   ],
   "note": "The values can be read back; the label of the cpu time is always glued to the cost (a missing separator in eda_result.py:39)."
  },
  {
   "property": "C97",
   "status": "partial",
   "theorems": [
    "C97_inside_partial",
    "C97_above",
    "C97_below",
    "C97_penalty_refuted",
    "C97_remainder_refuted"
   ],
   "note": "Right while every shifted value is in [-500, 500]; outside the penalty is multiplied by D instead of divided, and the negative branch takes z % 500 of the negative number (continuous.py:13,15)."
  },
  {
   "property": "C98",
   "status": "partial",
   "theorems": [
    "C98_sign_partial",
    "C98_zero_partial",
    "C98_ackley",
    "C98_happycat_refuted",
    "C98_hgbat_refuted"
   ],
   "note": "Ackley returns 2^-51 at the origin (its sign is C115_ackley); HappyCat and HGBat fall below zero next to their minimum; the other functions satisfy it."
  },
  {
   "property": "C99",
   "status": "proved",
   "theorems": [
    "C99_structure",
    "C99_bn"
   ],
   "note": ""
  },
  {
   "property": "C100",
   "status": "proved",
   "theorems": [
    "C100_means",
    "C100_covariances",
    "C100_inference"
   ],
   "note": ""
  },
  {
   "property": "C101",
   "status": "partial",
   "theorems": [
    "C101_values_partial",
    "C101_one_value",
    "C101_refuted"
   ],
   "note": "A single value is taken for all measured variables."
  },
  {
   "property": "C102",
   "status": "partial",
   "theorems": [
    "C102_learned_partial",
    "C102_refuted"
   ],
   "note": "After a failed re-learning the flag of the earlier success remains and the new, empty network is asked."
  },
  {
   "property": "C103",
   "status": "proved",
   "theorems": [
    "C103_unigauss",
    "C103_adapt",
    "C103_multigauss",
    "C103_range_refuted"
   ],
   "note": "C103_range_refuted shows that the slack is needed: the mean of three values 0.1 is above 0.1."
  },
  {
   "property": "C104",
   "status": "proved",
   "theorems": [
    "C104_umdac",
    "C104_pbil",
    "C104_umdac_bounds",
    "C104_pbil_bounds",
    "C104_umdac_every",
    "C104_pbil_every",
    "C104_umdac_bounds_every",
    "C104_pbil_bounds_every",
    "C104_umdac_calls",
    "C104_pbil_calls",
    "C104_range_refuted"
   ],
   "note": "The _every theorems cover runs that raise, the _calls theorems (runs that start from bounds) also the calls of a generation whose evaluation was cut short; a call that raises is not recorded. C104_range_refuted: with values of 2^1023 the first learned mean overflows and the next generation is not finite."
  },
  {
   "property": "C105",
   "status": "proved",
   "theorems": [
    "C105_continues",
    "C105_custom",
    "C105_no_worse",
    "C105_no_worse_refuted"
   ],
   "note": "C105_no_worse_refuted exhibits a run with the default ftol whose answer is made worse by one more iteration."
  },
  {
   "property": "C106",
   "status": "proved",
   "theorems": [
    "C106_unigauss",
    "C106_multigauss",
    "C106_unibin",
    "C106_categories",
    "C106_float",
    "C106_float_refuted",
    "C106_adapt_refuted"
   ],
   "note": "C106_float_refuted and C106_adapt_refuted show that the two exceptions named in the statement are real."
  },
  {
   "property": "C107",
   "status": "proved",
   "theorems": [
    "C107_umdac",
    "C107_pbil",
    "C107_umdad",
    "C107_multigauss",
    "C107_categories"
   ],
   "note": "Runs of EMNA and UMDAcat are not included: their samplers draw the variables of one individual together (an SVD of the covariances) or one after another. C107_categories assumes that the first learning succeeds: which column fails first depends on the order."
  },
  {
   "property": "C108",
   "status": "proved",
   "theorems": [
    "C108_same_order",
    "C108_other_order_refuted"
   ],
   "note": "C108_other_order_refuted shows the exception named in the statement: exchanging the two names changes the run."
  },
  {
   "property": "C109",
   "status": "proved",
   "theorems": [
    "C109_unigauss",
    "C109_adapt",
    "C109_multigauss",
    "C109_unibin",
    "C109_categories",
    "C109_categories_drawn",
    "C109_float",
    "C109_float_refuted"
   ],
   "note": "C109_float_refuted shows that the exception named in the statement is real."
  },
  {
   "property": "C110",
   "status": "proved",
   "theorems": [
    "C110_prefix",
    "C110_dies_out",
    "C110_converged",
    "C110_prefix_every",
    "C110_dies_out_every",
    "C110_converged_every"
   ],
   "note": "Hypotheses on possible_values as for C31; the _every theorems cover runs that raise."
  },
  {
   "property": "C111",
   "status": "proved",
   "theorems": [
    "C111_umdac",
    "C111_pbil",
    "C111_umdad",
    "C111_multigauss",
    "C111_categories"
   ],
   "note": ""
  },
  {
   "property": "C112",
   "status": "partial",
   "theorems": [
    "C112_unigauss",
    "C112_adapt",
    "C112_multigauss_partial",
    "C112_multigauss_refuted"
   ],
   "note": "Refuted for the diagonal of the matrix of EMNA: it holds standard deviations, so it is multiplied by |a_i| instead of a_i*a_i, and the shape of the distribution depends on the unit."
  },
  {
   "property": "C113",
   "status": "proved",
   "theorems": [
    "C113_squares",
    "C113_box",
    "C113_roots",
    "C113_waves"
   ],
   "note": "The distance is from the formulas of the source over the real numbers (Bench.v), which C59 to C61 compare with the textbook ones."
  },
  {
   "property": "C114",
   "status": "partial",
   "theorems": [
    "C114_nan_partial",
    "C114_infinite_partial",
    "C114_one_variable_refuted"
   ],
   "note": "Refuted for the Rosenbrock function with one variable, which is 0 for every argument, NaN included."
  },
  {
   "property": "C115",
   "status": "partial",
   "theorems": [
    "C115_shift_partial",
    "C115_shift_refuted",
    "C115_below",
    "C115_ackley",
    "C115_infinite"
   ],
   "note": "Refuted for function 5, whose bias is 800. Functions 10, 11, 13, 14 and 16 are off their bias at the shift over the reals already (C63)."
  },
  {
   "property": "C116",
   "status": "proved",
   "theorems": [
    "C116_squares",
    "C116_box",
    "C116_rest"
   ],
   "note": "The point is within rounding errors of the exact argument because some of these functions (Katsuura, Schaffer) are too steep for a useful bound at the argument itself."
  },
  {
   "property": "C117",
   "status": "proved",
   "theorems": [
    "C117_unigauss",
    "C117_unigauss_every",
    "C117_unigauss_pairs",
    "C117_unigauss_refused",
    "C117_multigauss",
    "C117_multigauss_every",
    "C117_multigauss_refused"
   ],
   "note": ""
  },
  {
   "property": "C118",
   "status": "partial",
   "theorems": [
    "C118_asymmetric_refuted",
    "C118_negative_refuted",
    "C118_covariance_partial"
   ],
   "note": "Refuted: the entries are drawn independently between the bounds. With two variables and different bounds the matrix can be asymmetric; with a negative lower bound (the default is -100) the variances can be negative."
  },
  {
   "property": "C119",
   "status": "proved",
   "theorems": [
    "C119_means",
    "C119_covariances"
   ],
   "note": "The recursion of the variances is the one of the code, which leaves out the covariances of the parents (C39)."
  },
  {
   "property": "C120",
   "status": "proved",
   "theorems": [
    "C120_counted",
    "C120_bits",
    "C120_learned_bits",
    "C120_choice",
    "C120_learned",
    "C120_declared"
   ],
   "note": "That random_sample returns k/2^53 with k uniform is numpy documentation, not modelled; the theorems count draws."
  },
  {
   "property": "C121",
   "status": "proved",
   "theorems": [
    "C121_chance",
    "C121_any",
    "C121_lost_refuted"
   ],
   "note": "C121_lost_refuted shows the exception named in the statement."
  },
  {
   "property": "C122",
   "status": "proved",
   "theorems": [
    "C122_boxed",
    "C122_returns",
    "C122_several",
    "C122_paid"
   ],
   "note": ""
  },
  {
   "property": "C123",
   "status": "proved",
   "theorems": [
    "C123_bits",
    "C123_categories",
    "C123_gauss"
   ],
   "note": "The bits and categories are about binary64, the Gaussian model about exact arithmetic."
  },
  {
   "property": "C124",
   "status": "proved",
   "theorems": [
    "C124_rare",
    "C124_found",
    "C124_best",
    "C124_limit",
    "C124_all"
   ],
   "note": "Random values are a tape of integers below 2^53, each draw reading the next ones; likelihood is the mean over all tapes. C124_all also counts the first generation, which multiplies the bound by that of C131."
  },
  {
   "property": "C125",
   "status": "proved",
   "theorems": [
    "C125_tail",
    "C125_generations",
    "C125_individuals"
   ],
   "note": "Random values as for C124."
  },
  {
   "property": "C126",
   "status": "proved",
   "theorems": [
    "C126_lost",
    "C126_default",
    "C126_best"
   ],
   "note": "Random values as for C124."
  },
  {
   "property": "C127",
   "status": "proved",
   "theorems": [
    "C127_first",
    "C127_lost",
    "C127_best"
   ],
   "note": "Random values: a tape of integers, each draw reading the next ones modulo 2^53; likelihood is the mean over all tapes below 2^53. Hypotheses on possible_values as for C31."
  },
  {
   "property": "C128",
   "status": "proved",
   "theorems": [
    "C128_initial",
    "C128_next",
    "C128_left",
    "C128_umdac",
    "C128_pbil",
    "C128_umdad"
   ],
   "note": "The generator is a state of any type; EMNA and the library models are left out of all parts but C128_initial, since how far they advance the generator may depend on what they learned."
  },
  {
   "property": "C129",
   "status": "proved",
   "theorems": [
    "C129_sample",
    "C129_first"
   ],
   "note": "Bounds given per variable (a number or a full list)."
  },
  {
   "property": "C130",
   "status": "proved",
   "theorems": [
    "C130_first",
    "C130_best"
   ],
   "note": "The generator reads its uniform numbers off a tape, row by row; nothing is assumed of the draws after the first generation. Runs that raise are not counted as failures to find the box: the bound is on runs that evaluated their first generation, or returned."
  },
  {
   "property": "C131",
   "status": "proved",
   "theorems": [
    "C131_bits",
    "C131_bits_best",
    "C131_default",
    "C131_categories"
   ],
   "note": "As C130. UMDAcat and EBNA draw column by column, so the numbers of one individual are size_gen apart on the tape."
  },
  {
   "property": "C132",
   "status": "proved",
   "theorems": [
    "C132_drift",
    "C132_box",
    "C132_bits",
    "C132_categories",
    "C132_found"
   ],
   "note": "C132_drift is about the loop with any overridden methods; the others repeat C130_best, C131 and C124_best without the restriction to ftol = 0."
  },
  {
   "property": "C133",
   "status": "partial",
   "theorems": [
    "C133_refuted",
    "C133_partial"
   ],
   "note": "The order matters: the individual listed first counts twice at the first selection (eda.py:169-170), so moving another one there changes the training set (C133_refuted). Reordering the others changes nothing (C133_partial; in parallel with at least as many individuals as cores)."
  },
  {
   "property": "C134",
   "status": "proved",
   "theorems": [
    "C134_umdac",
    "C134_pbil",
    "C134_default_deviation_refuted",
    "C134_default_noise_refuted"
   ],
   "note": "lower_factor and w_noise must be rescaled with the variables; the two _refuted theorems show that runs differ if either keeps its default."
  },
  {
   "property": "C135",
   "status": "proved",
   "theorems": [
    "C135_average",
    "C135_elite",
    "C135_strict"
   ],
   "note": "The averages are exact real numbers; finite costs are a hypothesis on the run (NaN and infinities have no average)."
  },
  {
   "property": "C136",
   "status": "proved",
   "theorems": [
    "C136_categories",
    "C136_gauss",
    "C136_bits",
    "C136_multi"
   ],
   "note": "About learning from the training set as selected (no noise added)."
  },
  {
   "property": "C137",
   "status": "proved",
   "theorems": [
    "C137_counts",
    "C137_rises",
    "C137_ranks"
   ],
   "note": "The elite may hold the first individual evaluated twice (it starts the elite before it is selected), hence the \"+ 1\" in C137_counts."
  }
 ]
}