# A Rocq model of scikit-optimize: design

Source: `/repo` (scikit-optimize 0.9.0, Python).  Proofs: `rocq/theories`, Coq 8.16.1.
Property statements: `properties.jsonl`.  Status of each: `MANIFEST.json`.
Mutation experiments: `seeded/LOG.jsonl`.

## 1. How the code is modelled

* Python functions become total Gallina functions.  Exceptions are values
  (`Raise exn`), and methods that mutate an object return the mutated object even
  when they raise, so partial updates before an exception are visible.
* Numbers.  The functions of `space.py`, `transformers.py`, `optimizer.py`,
  `utils.py`, `callbacks.py`, `plots.py`, `sampler/` are written once over a record
  `numops` of number operations and instantiated twice:
  - `F64`: IEEE-754 binary64 with NaN and infinities (Flocq
    `BinarySingleNaN`, round to nearest even).  Used when the claim is about
    floats: bounds, rounding, comparisons, NaN.
  - `Rops`: exact real numbers.  Used when the claim is true in exact
    arithmetic only (log-uniform round trips, metrics, softmax).
  `log10`, `exp` and `pow` of binary64 are arbitrary functions (arguments of the F64 instance);
  nothing is assumed about libm unless a theorem says so in its hypotheses.
* Randomness.  A random generator is an arbitrary state with arbitrary draw functions
  (arguments).  The only contract ever assumed is the documented support:
  `random_sample()` in [0,1), `randint(a,b)` in [a,b), a discrete choice among the
  given values, a permutation is a permutation.
* Surrogates, acquisition optimisers, objectives, callbacks are arbitrary functions
  (arguments): all theorems hold for each of them.  A stateful callback is a function of
  the list of results it has seen.  For the theorems that are about a particular surrogate
  (C54, C55, C67, C68, C79, C81, C82, C83_gaussian_process) the argument is instantiated
  with the model of that surrogate.
* Calculus claims (acquisition functions, kernels, GP posterior) are about exact
  real arithmetic, with Coquelicot's derivative and integral.

Every definition carries a comment with file and lines and the simplifications made.
Files named `Props_*.v` contain only property theorems, each closed by `exact`, with
`Print Assumptions` and an `Example` meeting its hypotheses.  Files named `*Spec.v` hold the
independent vocabulary the statements use; they do not call the model's helpers.

## 2. Trusted base

* Coq 8.16.1's kernel (with `vm_compute` for concrete witnesses and the Sobol table).
* Axioms: only those of the standard library, through Reals; see section 4.
* The faithfulness of the model to the Python text (comments cite the lines), and of the
  small models of numpy / scikit-learn primitives: `np.clip`, `np.round`, `np.argmin`,
  `np.argsort` (an arbitrary sorting permutation), `np.min`, `np.unique`, `np.asarray` promotion,
  `np.histogram`, `np.percentile`, `LabelBinarizer`, `hstack`, `cholesky`, `cho_solve`,
  `solve_triangular`.

### 2.1 What is modelled, source file by source file

| source | model file | modelled | not modelled |
|---|---|---|---|
| `space/transformers.py` | Transformers | all transformers, `Pipeline` | `fit` called twice; array dtypes other than those listed in Values.v |
| `space/space.py` | Values, Dimension, CheckDim, Space, Switch, Yaml | `Real`, `Integer`, `Categorical` (construction checks, warping, bounds, membership, distance, draws, `set_transformer`, equality), `check_dimension`, `Space` (construction, `rvs`, `transform`, `inverse_transform`, bounds, membership, lookup, distance, equality, transformer switching, `is_real`/`is_categorical`/constant counts) | `__repr__`, the syntax of YAML (`from_yaml` works on the parsed value), scipy's `rvs` interior (drawing is an oracle with its documented support) |
| `optimizer/optimizer.py` | Optimizer, Warn; with surrogates filled in: GpWorld, TreeWorld | `__init__`, `copy`, `ask`, `_ask`, `tell`, `_tell`, `_check_y_is_valid`, `run`, `update_next`, `get_result` | the fit of the surrogate (an argument), `fmin_l_bfgs_b` (an argument), joblib (its result is the list of results in order), other warnings |
| `optimizer/base.py`, `dummy.py`, `forest.py`, `gbrt.py`, `gp.py` | Minimize, Cook | `base_minimize`, `dummy_minimize`, the argument handling of the wrappers | printing |
| `callbacks.py` | Callbacks, Verbose | `check_callback`, `EarlyStopper` and all stoppers, `TimerCallback`, `CheckpointSaver`, `VerboseCallback` | the wording and number format of what `VerboseCallback` prints |
| `utils.py` | Dump, Named, Expected, Space, Cook | `create_result`, `eval_callbacks`, `dump`/`load`, point validation, `expected_minimum*`, `has_gradients`, `cook_estimator`, `cook_initial_point_generator`, `normalize_dimensions`, `point_as*`, `dimensions_aslist`, `use_named_args` | pickling format |
| `searchcv.py` | Search | `_check_search_space`, `_make_optimizer`, `_step`, `_run_search`, `total_iterations`, result columns used by the search | scikit-learn's cross validation (an argument) |
| `acquisition.py` | Acquisition | all functions, values and gradients | broadcasting of shapes that the optimizer never passes |
| `learning/gaussian_process/kernels.py` | Kernels | `gradient_x` of every kernel, values of the kernels (they come from scikit-learn), `HammingKernel` value and hyperparameter gradient | scikit-learn's hyperparameter machinery |
| `learning/gaussian_process/gpr.py` | Gpr, Cholesky | `_param_for_white_kernel_in_Sum`, noise handling in `fit`, `predict` with means, deviations, covariances, gradients; Cholesky factorisation and triangular solves in exact arithmetic | the search for hyperparameters (its result is an argument), rounding |
| `learning/forest.py` | Forest | `_return_std`, `predict` | growing of trees |
| `learning/gbrt.py` | Gbrt | `fit` (which quantiles are fitted to what), `predict` | boosting interior |
| `sampler/*.py` | Sampler, Sobol, Generators | `Lhs`, `Sobol`, `Halton`, `Hammersly`, `Grid` with all options | the strings of error messages |
| `plots.py` | Plots, Objective, GpPlot | all numbers that end up in a figure: traces, panels, contour grids, histograms, ticks, `partial_dependence*`, `_evaluate_min_params` | matplotlib drawing, colours, labels' fonts |
| `benchmarks.py` | Benchmarks | all functions | their global counters |

Not modelled anywhere: the numerical interior of scikit-learn / scipy (tree fitting,
hyperparameter search, L-BFGS, `minimize`), parallel execution, matplotlib drawing, YAML syntax,
warnings (but for that of `ask`) and printing, pickling formats, copying costs and memory.

## 3. Plan per property

| property | model | proof |
|---|---|---|
| C01 | Transformers, Dimension over F64 | order laws of Flocq comparison, clip lemma, monotone rounding; arbitrary log10/pow. float32 / small int dtypes: refuted by witness |
| C02 | CategoricalEncoder, LabelEncoder, StringEncoder, Normalize | induction on category list, decimal printing round trip; bool with 'string', mixed types: refuted |
| C03 | Integer + Normalize + LogN over F64 | Flocq error bound on (x-l)/(h-l)*(h-l)+l, then rounding; for logarithms the error of the exponent carried through pow, below one half up to 2^39 |
| C04 | Real over R and F64 | field / Rpower lemmas; identity over F64 by clip; scaling over F64: rounding to nearest twice against values that are floats themselves; logarithms under the accuracy assumption of LibmSpec |
| C05 | Space.transform / inverse_transform | induction on dimensions with column offsets, each dimension coming back changed by its own map |
| C06 | Space.rvs with random oracle | from C01 + support contract |
| C07 | transformed_bounds | over F64/R; refuted for log-uniform base /= 10 and Integer log-uniform |
| C08 | distance over R and F64 | sums of metrics; relative error of float sums (no underflow error in addition), induction on dimensions |
| C09 | check_x_in_space | induction on zip |
| C10 | __eq__ | refuted (zip truncation), the part that holds proved |
| C11, C12 | __getitem__, dimension_names, check_dimension | induction / case analysis against a separate specification |
| C13-C26 | Optimizer state machine with exceptions | invariants over arbitrary call histories |
| C27-C31 | base_minimize, dummy_minimize | induction on the loop, trace of evaluations |
| C32-C35 | callbacks | sorting, running minimum, clock sequences |
| C36, C37 | file system with crash points, object heap | C36 refuted for the non-atomic write; weaker statement proved |
| C38-C40 | BayesSearchCV loop | induction on iterations and spaces |
| C41 | use_named_args | induction on zip |
| C42-C48 | samplers | counts by induction; radical inverse; sieve; Gray code and bit matrices |
| C49-C51 | acquisition over R | Gaussian integral, derivatives |
| C52-C55 | kernels, GPR | derivatives by structural induction on kernel expressions |
| C56, C57 | forest, gbrt | sums over R; C57 refuted for crossing quantiles |
| C58-C60 | plots, expected_minimum | induction |
| C61 | Optimizer + validation | from C16 and C09 |
| C62, C76 | Optimizer with candidates and an arbitrary sorting permutation / search | argmin lemmas over the candidates; the ends of the searches |
| C63 | base_minimize | invariants of C13, C14, C16 along the loop |
| C64, C77 | Halton, Sobol | Chinese remainders on digit prefixes; elementary intervals by triangular bit matrices |
| C65 | Lhs criteria | induction over the attempts |
| C66 | draws of Integer and Categorical | a generator state for every value; boundary draws |
| C67, C68, C79 | GP posterior | Schur complement, quadratic forms; chain rule through C51 and C54 |
| C69-C73, C75 | figures | what is drawn is described by a separate specification of panels |
| C74 | models of a run | invariant relating each model with a prefix of the history |
| C78 | kernels | positive semi-definite functions closed under sums, products, limits (exponential series, Matern as mixtures) |
| C80 | benchmark functions | exact algebra, monotonicity of cos, convexity; hart6 by a verified branch and bound over the four exponents with chords of exp, and Lipschitz continuity for existence |
| C81 | Cholesky in exact arithmetic | induction on the size with Schur complements |
| C82 | Optimizer with the GP of Gpr.v as surrogate | C62 with C50's characterisation of the acquisition |
| C83 | all of the Optimizer | a progress theorem: every documented call returns and leads to a state where every documented call returns |
| C84 | names, keyword arguments, kernel of the default GP | letters by arithmetic on codes; parameters as dictionaries; two passes over the heap give objects that agree after normalisation |
| C85 | choice of the acquisition optimizer | case analysis over the cooked estimator; gradients of the default kernel exist or are refused at every point |
| C86 | aliasing of dimension objects | a heap of objects, frame lemmas for check_dimension and normalize_dimensions |
| C87 | set_transformer on objects | induction over the dimensions with the invariant "alike"; honest objects are determined by their label |
| C88 | Sobol | the leading bits of all dimensions form one linear system over GF(2); solvability checked by computation, lifted to all stretches |
| C89 | from_yaml | each option function is equivalent to a relation on the options as written; later duplicates by reversing the list |
| C90 | Optimizer with Forest.v or Gbrt.v as surrogate (TreeWorld.v) | C62 with C56/C57's characterisation of the predictions |
| C91 | base_minimize and its wrappers | C83's invariant carried through the loop of base_minimize; instances by C83_gaussian_process, C83_forest, C83_boosted |
| C92 | Optimizer with a surrogate that may fail to be fitted, gp_minimize | the invariant of C83 with what the surrogate needs of the observations as a parameter; it is monotone, so that a failure of a copy told lies speaks about the original |
| C93 | Halton, Hammersly, Lhs, Grid, Sobol in float64, cook_initial_point_generator, Optimizer | error bounds of the digit sums, of linspace and of the shift; a design up to one unit above 1 still maps into the space; the generator assumption of C16 and C31 discharged |
| C94 | GaussianProcessRegressor.fit and predict | a permuted kernel matrix has the permuted inverse and solution, and these are unique; normalised observations are the same in every unit |
| C95 | VerboseCallback, run beside base_minimize on its events | the loop of base_minimize as rounds; the state of the callback after k rounds; results as prefixes of the final one |
| C96 | Optimizer.tell with lists and with single observations | each call as recording followed by the same continuation; recordings compose; induction over the list |
| C97 | two optimizers in two units (Optimizer, GpWorld) | simulation between the two executions; the acquisition values are related by an increasing map, hence the same argmin; lies are converted |
| C98 | two optimizers in two spaces (Optimizer, Space, Generators) | warping a converted value gives the same warped value and un-warping converts; simulation between the two executions |
| C99 | minimisers (Minimize) on top of Optimizer | evaluation history of the second call (C28); the points of a documented run lie in the space, by comparing with an objective that raises outside it |
| C100 | optimizer with a Gaussian process (Optimizer, GpWorld, Gpr, Acquisition) | the acquisition function works row by row; the best end of descending searches from the best candidates beats all candidates |
| C101 | Gaussian process regressor (Gpr) | the explained variance is a maximum over weights; weights for fewer points are weights for more |
| C102 | Optimizer state machine over a Gaussian process world (Optimizer, GpWorld, Gpr) | simulation: states that agree up to a permutation of the observations and surrogates with equal predictions |
| C103 | the warning of ask (Warn) on top of Optimizer and Space | the least of the distances is small iff one is; C08 for the distances |
| C104 | Hammersly | C64 for the first dimensions; the last coordinate is the index |

No property is left out as inexpressible; where part of a property concerns external
code (for example that scipy's minimiser does not return a worse point than its start)
that part appears as a hypothesis on the corresponding argument.  Where the property is false of the
code, a theorem with suffix `_refuted` exhibits a witness and the part that holds is proved.

## 4. What Print Assumptions lists, theorem by theorem

Letters: **F** `ClassicalDedekindReals.sig_forall_dec`, **D** `ClassicalDedekindReals.sig_not_dec`,
**E** `FunctionalExtensionality.functional_extensionality_dep`, **C** `Classical_Prop.classic`; all four belong to the
standard library and come in through its construction of the reals.  "closed" means closed under the
global context.  The lists are regenerated from the output of `Print Assumptions`.

* `Props_Acquisition.v`
  - CDEF: C49_pi, C50_ei, C49_lcb, C49_negated, C50_mean, C50_std, C50_certain_improvement_refuted, C50_per_second, C51_lcb, C51_ei, C51_pi, C51_eips, C51_pips, C51_flat, C51_isolated_refuted
* `Props_BatchTell.v`
  - closed: C96_batch, C96_refused, C96_history
* `Props_Bench.v`
  - EF: C80_bench1, C80_time, C80_bench2, C80_bench4, C80_bench5
  - CDEF: C80_bench3, C80_branin, C80_branin_value, C80_hart6, C80_hart6_attained
* `Props_Callbacks.v`
  - closed: C29_any_outcome, C32_delta_y, C33_delta_x, C34_hollow, C35_threshold, C35_threshold_minimise, C35_deadline, C36_checkpoint_partial, C37_without_objective, C37_no_objective, C37_no_specs_refuted
  - CDEF: C32_delta_y_exact, C33_delta_x_exact, C35_in_time, C35_durations_partial, C35_durations_refuted, C36_torn_refuted
* `Props_Campaign.v`
  - CDEF: C82, C82_per_second, C83, C83_open, C83_copy, C83_make, C83_gaussian_process, C83_dummy_refuted
  - closed: C62_per_second
* `Props_Chol.v`
  - DEF: C81_exists, C81_solves
  - CDEF: C81_fit, C81_repeated
* `Props_Cook.v`
  - EF: C84_by_name, C84_answered, C84_refused, C84_dummy, C85_refused, C86_untouched, C86_others, C86_gaussian_process
  - closed: C84_generator, C84_generator_random, C84_generator_refused
  - CDEF: C84_kernel, C84_per_second_refuted, C85_auto, C85_per_second_refuted, C86_shared_refuted
* `Props_Cov.v`
  - CDEF: C78_kernel_partial, C78_periodic_refuted, C78_exponent_refuted, C79_covariance
* `Props_Expected.v`
  - CDEF: C60_random_sampling, C60_expected_partial, C60_integer_refuted
* `Props_Fit.v`
  - closed: C74_optimizer, C74_minimizer, C75_observations_partial, C75_counts
  - CDEF: C75_picture, C75_total, C75_observations_refuted, C75_given_refuted, C75_first_refuted, C75_categories_refuted
* `Props_FloatMetric.v`
  - CDEF: C08_distance_float, C08_triangle_float, C08_triangle_float_refuted
* `Props_FloatRound.v`
  - CDEF: C04_real_round_trip_float, C04_float_exact_refuted, C03_integer_log_round_trip_float, C05_space_round_trip_float
* `Props_Generators.v`
  - CDEF: C42_halton_float, C42_hammersly_float, C42_lhs_float, C42_grid_float_partial, C42_sobol_float, C93_named_points, C93_named_suggestions, C93_named_dummy, C93_given_points
  - closed: C42_reach
* `Props_Gpr.v`
  - CDEF: C54_gradients_partial, C54_total, C54_single, C54_dot_product_refuted, C55_first_fit_partial, C55_no_noise, C55_refit_refuted, C67_prior, C67_training, C68_lcb, C68_ei, C68_pi
* `Props_GprOrder.v`
  - CDEF: C94_order, C94_unit
* `Props_HaltonF.v`
  - CDEF: C64_float
* `Props_Hammer.v`
  - CDEF: C104_boxes
* `Props_HammerF.v`
  - CDEF: C104_float
* `Props_Hedge.v`
  - CDEF: C23_softmax, C23_float
* `Props_Kernels.v`
  - CDEF: C52_gradient, C52_total, C52_training_point_refuted, C52_products_refuted, C53_similarity, C53_number, C53_set, C53_gradient_iso, C53_gradient_aniso
  - DEF: C53_total
* `Props_LatinF.v`
  - CDEF: C43_float, C43_float_exact_refuted
* `Props_MinTotal.v`
  - CDEF: C91, C91_gp, C91_forest, C91_gbrt
* `Props_Minimize.v`
  - closed: C27_evaluations, C27_exactly_n_calls, C28_given_points_first, C29_callbacks, C30_minimise_by_hand, C30_by_hand_minimise, C31_dummy_unfitted, C63_result_in_space, C63_result_is_best
  - CDEF: C27_negative_refuted, C27_dummy_refuted, C31_dummy_succeeds_partial, C31_one_point_refuted, C31_many_dimensions_refuted
* `Props_More.v`
  - CDEF: C101_certain, C101_values, C101_spread_refuted
* `Props_Normalised.v`
  - CDEF: C92, C92_copy, C92_gaussian_process, C92_minimize, C92_gp
  - closed: C92_kept
* `Props_Optimizer.v`
  - closed: C13_history, C13_aligned, C13_result, C14_best_observation, C15_never_worse, C17_design, C17_initial_phase, C17_no_fit, C17_surrogate_phase, C18_ask_changes_nothing, C18_ask_repeats, C19_batch_size, C19_batch_stable, C19_rejects, C19_initial_batch, C20_min_max_lies_partial, C21_rejected_unchanged, C22_recent_models, C22_newest_last, C23_choice_and_gains, C24_run_by_hand, C24_by_hand_run, C24_get_result, C25_copy_same, C25_copy_suggests, C26_log_times_partial, C62_best_candidate, C76_best_search
  - CDEF: C13_mismatched_refuted, C13_batch_scalar_refuted, C16_suggestions_in_space, C61_suggestion_can_be_told, C17_unfitted_ask_refuted, C20_mean_lies_partial, C20_per_second_refuted, C22_empty_queue_refuted, C23_weights, C25_queue_refuted, C26_incumbent_refuted
* `Props_Order.v`
  - CDEF: C102, C102_singly, C102_any
* `Props_OrderMin.v`
  - CDEF: C102_gp_minimize, C102_minimize_any
* `Props_Panels.v`
  - CDEF: C69_partial, C69_refuted, C70_labels, C71_histogram, C72_partial, C72_refuted, C73_objective, C73_constant, C73_2D, C73_refused
  - closed: C73_asked
* `Props_Plots.v`
  - CDEF: C58_convergence, C58_trace, C58_regret, C58_regret_grows, C58_regret_refuted, C59_1D, C59_2D, C59_points, C59_plotted, C59_total
* `Props_Reach.v`
  - CDEF: C66_drawn, C66_low_bound, C66_inner_value
* `Props_Resume.v`
  - closed: C99_continues, C99_no_worse
  - CDEF: C99_succeeds, C99_per_second_refuted
* `Props_Sampler.v`
  - CDEF: C42_halton, C42_hammersly, C42_lhs, C42_grid_partial, C42_grid_short_refuted, C42_grid_memory_refuted, C43_stratified, C44_range, C44_distinct, C44_strata, C47_grid_partial, C47_no_repetition_partial, C47_borders_refuted, C48_exception_refuted, C64_boxes
  - closed: C45_first_primes, C45_sieve, C48_halton, C48_hammersly, C48_lhs, C48_grid, C65_maximin, C65_ratio
* `Props_Scale.v`
  - CDEF: C98, C98_make, C98_generators, C98_raw_refuted
* `Props_Search.v`
  - closed: C38_batches, C38_bounded, C38_total_partial, C38_zero_iterations, C39_own_scores, C40_roundtrip, C40_names, C40_dimensions, C40_back, C40_missing, C40_any_order, C41_keywords_partial, C41_length, C41_unnamed, C41_same_name_refuted
  - CDEF: C38_total_refuted
* `Props_Sobol.v`
  - CDEF: C46_strata, C46_range, C46_distinct, C46_shift, C46_in_vain_refuted, C42_sobol, C77_boxes, C77_recurrence, C88_cells, C88_halves_refuted
  - closed: C46_history, C46_design, C46_limit, C48_sobol
* `Props_SobolF.v`
  - CDEF: C46_float, C46_float_strata
* `Props_Space.v`
  - CDEF: C01_inverse_in_bounds, C01_inverse_defined, C01_categorical_inverse_in, C02_categorical_round_trip, C03_integer_round_trip, C05_space_round_trip
* `Props_Space2.v`
  - CDEF: C04_real_round_trip, C04_identity_round_trip, C03_integer_log_round_trip, C05_space_round_trip_exact, C06_samples_in_space, C07_warped_in_bounds_partial, C07_warped_in_bounds_exact_partial, C07_label_bounds_refuted, C07_integer_log_bounds_refuted, C07_real_log_bounds_refuted, C01_float32_refuted, C01_int8_refuted, C01_nan_refuted, C02_string_bool_refuted
* `Props_Space3.v`
  - CDEF: C08_distance_metric, C08_distance_outside, C09_integer_fraction_refuted, C09_membership_length_refuted, C10_space_equality_partial, C10_length_refuted, C10_prior_refuted, C10_symmetry_refuted, C12_base_refuted
  - closed: C09_point_validation, C09_point_rejected, C09_batch_validation, C11_lookup_name, C11_lookup_index, C11_lookup_list, C11_names, C12_two_ints, C12_two_numbers, C12_with_prior, C12_with_base, C12_categories, C12_dimension, C12_prior_name_refuted
* `Props_Switch.v`
  - closed: C87_meaning, C87_set, C87_offered, C87_refused, C87_restore, C87_by_type
  - CDEF: C87_refused_refuted
* `Props_TreeWorld.v`
  - CDEF: C90_forest, C90_boosted, C83_forest, C83_boosted, C83_trees_per_second_refuted
* `Props_Trees.v`
  - DEF: C56_total_variance, C56_total, C56_mixture
  - CDEF: C57_std_partial, C57_total, C57_negative_refuted, C57_cover_refuted
* `Props_Unit.v`
  - CDEF: C97, C97_any, C97_margin_refuted, C97_hedge_refuted
* `Props_VdcF.v`
  - CDEF: C44_float, C44_float_distinct, C44_float_strata
* `Props_Verbose.v`
  - closed: C95_reports, C95_plain
  - CDEF: C95_provided_refuted, C95_evaluated_refuted
* `Props_Warn.v`
  - CDEF: C103, C103_float, C103_narrow_refuted, C103_initial_refuted
* `Props_Worth.v`
  - CDEF: C100
* `Props_Yaml.v`
  - C: C89_entries
  - closed: C89_refused, C89_documented_refuted
  - CDEF: C89_dropped_refuted
