{"id": "C01", "title": "Inverse transform always lands inside the dimension", "statement": "For a Real (float64) or Integer dimension, `dim.inverse_transform(z)` of any warped value z whose un-warped value is not NaN is a value v with `v in dim` being True; for Integer v is moreover an integer. For a Categorical dimension with a numeric encoding (onehot, label, normalize) the inverse of any warped value is one of the categories, or an exception.", "quantifier": "all dimensions (all bounds, priors, bases, transforms), all float64 warped values including infinities, all behaviours of log10 and pow", "why_tests_cant": "the warped values come from an optimiser or a surrogate and range over all of float64; rounding at the bounds cannot be enumerated", "anchors": ["skopt/space/space.py:Real.inverse_transform", "skopt/space/space.py:Integer.inverse_transform", "skopt/space/space.py:Categorical.inverse_transform", "skopt/space/transformers.py:Normalize.inverse_transform", "skopt/space/transformers.py:LogN.inverse_transform"]}
{"id": "C02", "title": "Categorical values survive the round trip", "statement": "For a Categorical dimension with pairwise distinct categories of one type, and for each of the encodings onehot, normalize, label, string and identity, `inverse_transform(transform(xs))` returns xs exactly, for every non-empty list xs of categories (for the string encoding: categories whose text reads back as the same value, which excludes booleans and None).", "quantifier": "all category lists (any length, also 1 and 2), all lists of values, all encodings", "why_tests_cant": "category lists have unbounded length and the 1-, 2- and many-category code paths differ", "anchors": ["skopt/space/space.py:Categorical.transform", "skopt/space/space.py:Categorical.inverse_transform", "skopt/space/transformers.py:CategoricalEncoder", "skopt/space/transformers.py:LabelEncoder", "skopt/space/transformers.py:StringEncoder", "skopt/space/transformers.py:Pipeline"]}
{"id": "C03", "title": "Integer values survive normalisation exactly in floating point", "statement": "For an Integer dimension with transform 'normalize' and uniform prior, warping an integer of the dimension and un-warping it gives the same integer, in IEEE double arithmetic, including the checks that may raise. With a log-uniform prior it gives the same integer too, for bounds from 1 to 2^39 and a mathematical library accurate to two units in the last place.", "quantifier": "all bounds low < high and all integers between them (up to 2^50 in absolute value)", "why_tests_cant": "rounding of (x-low)/(high-low)*(high-low)+low must be controlled for every one of ~2^100 triples", "anchors": ["skopt/space/space.py:Integer.inverse_transform", "skopt/space/transformers.py:Normalize"]}
{"id": "C04", "title": "Real values survive the round trip up to rounding only", "statement": "For a Real dimension with any prior, base and transform, `inverse_transform(transform([x]))` equals x in exact arithmetic, for every x in the dimension; with transform 'identity' and uniform prior it is x exactly in IEEE arithmetic too. Otherwise x comes back in IEEE double arithmetic within 2^-50 of the width of the dimension (uniform prior) or within 2^-46 (1 + max(|ln low|, |ln high|)) of itself (log-uniform prior, library accurate to two units in the last place).", "quantifier": "all bounds, all positive bases other than 1 (bases above 1 when normalised), all points of the interval", "why_tests_cant": "a continuum of inputs", "anchors": ["skopt/space/space.py:Real.transform", "skopt/space/space.py:Real.inverse_transform", "skopt/space/transformers.py:LogN", "skopt/space/transformers.py:Normalize"]}
{"id": "C05", "title": "Space transform and inverse transform agree column by column", "statement": "`Space.transform(X)` returns len(X) rows of exactly `transformed_n_dims` numbers, row i being the concatenation of the warped coordinates of X[i] in dimension order; `Space.inverse_transform` undoes it, returning X, whenever each dimension round-trips. In IEEE double arithmetic integers and categories come back unchanged and reals as close as their dimension allows.", "quantifier": "all spaces (any number, order and kind of dimensions), all lists of points", "why_tests_cant": "column offsets depend on every earlier dimension's width; the number of combinations of dimensions is unbounded", "anchors": ["skopt/space/space.py:Space.transform", "skopt/space/space.py:Space.inverse_transform", "skopt/space/space.py:Space.transformed_n_dims", "skopt/space/space.py:_transpose_list_array"]}
{"id": "C06", "title": "Random points belong to the space", "statement": "`Space.rvs(n, random_state)` returns n points, each with one coordinate per dimension and each contained in the space.", "quantifier": "all spaces, all n, all outcomes of the random generator", "why_tests_cant": "random outcomes cannot be enumerated; boundary draws have tiny probability", "anchors": ["skopt/space/space.py:Space.rvs", "skopt/space/space.py:Dimension.rvs", "skopt/space/space.py:Categorical.rvs", "skopt/space/space.py:_uniform_inclusive"]}
{"id": "C07", "title": "Warped points lie inside the advertised warped bounds", "statement": "For every point x of a dimension, `transform([x])` lies coordinatewise inside `transformed_bounds`, the box handed to the acquisition optimiser.", "quantifier": "all dimensions and all points in them", "why_tests_cant": "depends on prior, base and transform combinations with a continuum of points; existing tests only use base 10", "anchors": ["skopt/space/space.py:Real.transformed_bounds", "skopt/space/space.py:Integer.transformed_bounds", "skopt/space/space.py:Categorical.transformed_bounds", "skopt/space/space.py:Space.transformed_bounds"]}
{"id": "C08", "title": "Space distance is a metric on the space", "statement": "`Space.distance(a, b)` is zero exactly when a equals b, symmetric and satisfies the triangle inequality, and raises for points that are outside the space. In float64 it is still symmetric and zero for equal points only, and differs from the exact distance, and so from the triangle inequality, by rounding only.", "quantifier": "all spaces, all triples of points", "why_tests_cant": "universally quantified over triples of points", "anchors": ["skopt/space/space.py:Space.distance", "skopt/space/space.py:Real.distance", "skopt/space/space.py:Categorical.distance"]}
{"id": "C09", "title": "Point validation accepts exactly the points of the space", "statement": "The validation applied by `tell` (`check_x_in_space`) succeeds on a point exactly when it has one coordinate per dimension and each coordinate is within that dimension; otherwise a ValueError is raised.", "quantifier": "all spaces and all points", "why_tests_cant": "all lengths and all coordinate values", "anchors": ["skopt/utils.py:check_x_in_space", "skopt/space/space.py:Space.__contains__", "skopt/space/space.py:Real.__contains__", "skopt/space/space.py:Categorical.__contains__"]}
{"id": "C10", "title": "Equality of spaces means the same dimensions", "statement": "`space1 == space2` is True exactly if both have the same dimensions in the same order.", "quantifier": "all pairs of spaces", "why_tests_cant": "pairs of spaces of arbitrary length", "anchors": ["skopt/space/space.py:Space.__eq__", "skopt/space/space.py:Real.__eq__", "skopt/space/space.py:Integer.__eq__", "skopt/space/space.py:Categorical.__eq__"]}
{"id": "C11", "title": "Dimension lookup by name returns the right dimension", "statement": "`space[name]` returns the index and the dimension of the first dimension whose name is `name`, or (None, None) when there is none; `space[i]` returns dimension i for 0 <= i < n_dims; a list of names gives one entry per name, in order; `dimension_names` has one name per dimension, X_i standing for the unnamed i-th.", "quantifier": "all spaces, all names and indices", "why_tests_cant": "any number of dimensions, repeated and missing names", "anchors": ["skopt/space/space.py:Space.__getitem__", "skopt/space/space.py:Space.dimension_names"]}
{"id": "C12", "title": "Dimension inference from shorthand", "statement": "`check_dimension` turns a shorthand into the documented dimension: a 2-tuple of ints gives Integer, a 2-tuple containing a float gives Real, a (low, high, prior[, base]) gives Real or Integer with that prior, any other list of str/number/bool gives Categorical with exactly these categories; a Dimension object is passed through.", "quantifier": "all shorthand lists", "why_tests_cant": "the decision table ranges over all value lists of all lengths and types", "anchors": ["skopt/space/space.py:check_dimension"]}
{"id": "C13", "title": "Observation history is append-only and aligned", "statement": "After any sequence of successful `tell` calls, `Xi` is exactly the sequence of told points and `yi` the sequence of told values in order; in particular result.x_iters[i] was observed with result.func_vals[i].", "quantifier": "all sequences of ask/tell/run/get_result calls, single and batch, all surrogates", "why_tests_cant": "histories are unbounded and interleavings of ask and tell are arbitrary", "anchors": ["skopt/optimizer/optimizer.py:Optimizer.tell", "skopt/optimizer/optimizer.py:Optimizer._tell", "skopt/utils.py:create_result"]}
{"id": "C14", "title": "The reported optimum is the best observation", "statement": "In every result returned by tell/get_result/minimisers, `fun` is the minimum of `func_vals`, `x` is the first point observed with that value and `x` is one of `x_iters`.", "quantifier": "all histories of observations without NaN", "why_tests_cant": "any length and order of observations, ties included", "anchors": ["skopt/utils.py:create_result", "skopt/optimizer/optimizer.py:Optimizer.get_result"]}
{"id": "C15", "title": "The reported optimum never gets worse", "statement": "Along any history of observations, the `fun` of later results is never larger than that of earlier ones.", "quantifier": "all histories of observations without NaN", "why_tests_cant": "unbounded histories", "anchors": ["skopt/utils.py:create_result", "skopt/optimizer/optimizer.py:Optimizer._tell"]}
{"id": "C16", "title": "Suggestions always lie in the space", "statement": "Every point returned by `ask()` and every point of `ask(n_points)` belongs to the space, in the initial phase and in the model phase, whatever the surrogate, acquisition values and numerical optimiser return.", "quantifier": "all spaces, all surrogates and acquisition functions, all random outcomes, all histories", "why_tests_cant": "the surrogate and L-BFGS output are arbitrary numbers; tests only see well-behaved ones", "anchors": ["skopt/optimizer/optimizer.py:Optimizer.ask", "skopt/optimizer/optimizer.py:Optimizer._ask", "skopt/optimizer/optimizer.py:Optimizer._tell"]}
{"id": "C17", "title": "The initial phase lasts exactly n_initial_points observations", "statement": "While fewer than n_initial_points observations have been told, `ask()` returns a point of the initial design (the k-th point of the generated design after k observations, or a fresh random point) and no surrogate is fitted; from then on, surrogates are fitted at each tell and suggestions come from the surrogate, unless there is none (dummy).", "quantifier": "all histories, all n_initial_points, batch tells included", "why_tests_cant": "phase boundaries under arbitrary batch sizes", "anchors": ["skopt/optimizer/optimizer.py:Optimizer._ask", "skopt/optimizer/optimizer.py:Optimizer._tell", "skopt/optimizer/optimizer.py:Optimizer.__init__"]}
{"id": "C18", "title": "Asking does not change the optimizer's knowledge", "statement": "`ask()` never changes the observations, the models or the number of remaining initial points, and in the model phase repeated `ask()` without a tell returns the same point.", "quantifier": "all reachable optimizer states", "why_tests_cant": "all histories", "anchors": ["skopt/optimizer/optimizer.py:Optimizer.ask", "skopt/optimizer/optimizer.py:Optimizer._ask"]}
{"id": "C19", "title": "Batch suggestions have the requested size and are stable", "statement": "`ask(n_points=k)` returns exactly k points, does not alter the optimizer's observations, models or phase, and asking again with the same arguments, with only plain asks and get_result calls in between, returns the same list; an invalid n_points or strategy is rejected with ValueError.", "quantifier": "all reachable states, all k, all strategies", "why_tests_cant": "all histories and k", "anchors": ["skopt/optimizer/optimizer.py:Optimizer.ask", "skopt/optimizer/optimizer.py:Optimizer.copy"]}
{"id": "C20", "title": "Constant-liar values are statistics of the true observations", "statement": "While building a batch with strategy cl_min/cl_mean/cl_max, each lie told to the internal copy is the min/mean/max of the objective values observed so far (and of the log time for per-second acquisition), and the copy's history is the true history followed by the suggested points with these lies.", "quantifier": "all histories, all batch sizes", "why_tests_cant": "internal copies are not observable by tests of the returned list", "anchors": ["skopt/optimizer/optimizer.py:Optimizer.ask"]}
{"id": "C21", "title": "Rejected observations leave the optimizer unchanged", "statement": "If `tell` rejects its arguments (point outside the space, scalar/list mismatch between x and y), the optimizer's observations, phase and models are those before the call.", "quantifier": "all states, all invalid arguments", "why_tests_cant": "universally quantified over bad inputs and states", "anchors": ["skopt/optimizer/optimizer.py:Optimizer.tell", "skopt/optimizer/optimizer.py:Optimizer._check_y_is_valid", "skopt/utils.py:check_x_in_space"]}
{"id": "C22", "title": "Model queue keeps the most recent models", "statement": "With model_queue_size=q the optimizer keeps at most q models, namely the most recent q in fitting order; with None it keeps all. Every result carries the models fitted so far, newest last.", "quantifier": "all histories and queue sizes", "why_tests_cant": "unbounded histories", "anchors": ["skopt/optimizer/optimizer.py:Optimizer._tell", "skopt/optimizer/optimizer.py:Optimizer.__init__"]}
{"id": "C23", "title": "gp_hedge chooses candidates by a probability distribution", "statement": "With acq_func gp_hedge, the selection weights are proportional to exp(eta * gain), non-negative and sum to one whatever the accumulated gains, also in float64 up to rounding that numpy's multinomial tolerates; the chosen suggestion is one of the three candidates; after each fit, each gain decreases by exactly the new model's prediction at the candidate of that strategy.", "quantifier": "all gains, all models, all histories", "why_tests_cant": "gains are accumulated real numbers over unbounded histories; softmax normalisation must hold for all of them", "anchors": ["skopt/optimizer/optimizer.py:Optimizer._tell"]}
{"id": "C24", "title": "run and get_result agree with ask and tell", "statement": "`run(func, n)` evaluates func exactly n times, each at the point `ask()` returned, tells each value, and returns the last result; `get_result()` returns the same data as the last `tell`, without changing the optimizer.", "quantifier": "all objectives, all n, all states", "why_tests_cant": "all n and all objectives", "anchors": ["skopt/optimizer/optimizer.py:Optimizer.run", "skopt/optimizer/optimizer.py:Optimizer.get_result"]}
{"id": "C25", "title": "Copies replay the same history", "statement": "`copy()` yields an optimizer with the same space, observations, remaining initial points and initial design, so that while a generated initial design lasts it makes the same suggestions; the size of the model queue is not copied; the original is unaffected by what is told to the copy.", "quantifier": "all reachable states", "why_tests_cant": "all histories", "anchors": ["skopt/optimizer/optimizer.py:Optimizer.copy"]}
{"id": "C26", "title": "Per-second acquisition uses log of time and the objective", "statement": "With an acquisition function ending in 'ps', observations are (value, time) pairs with positive time; the time model is trained on log(time) and the objective model on the values, and the incumbent handed to the acquisition is the least objective value.", "quantifier": "all histories of pairs", "why_tests_cant": "the incumbents mix two quantities; tests use benign scales only", "anchors": ["skopt/optimizer/optimizer.py:Optimizer._tell", "skopt/optimizer/optimizer.py:Optimizer._check_y_is_valid", "skopt/acquisition.py:_gaussian_acquisition"]}
{"id": "C27", "title": "Minimisers call the objective exactly n_calls times", "statement": "Without callbacks, base_minimize (hence gp_minimize, forest_minimize, gbrt_minimize, dummy_minimize) evaluates the objective exactly n_calls times, counting the points of x0 evaluated when y0 is not given; the result has n_calls (+ len(y0)) observations.", "quantifier": "all objectives, all n_calls, n_initial_points and x0/y0 combinations accepted by the argument checks", "why_tests_cant": "budget arithmetic over all argument combinations", "anchors": ["skopt/optimizer/base.py:base_minimize", "skopt/optimizer/dummy.py:dummy_minimize"]}
{"id": "C28", "title": "Given points come first and in order", "statement": "The observations of a minimisation start with x0 in order (with y0, or with the objective evaluated at them), followed by the suggestions; each value in func_vals is the objective's value at the corresponding point.", "quantifier": "all objectives, x0, y0", "why_tests_cant": "all lengths", "anchors": ["skopt/optimizer/base.py:base_minimize"]}
{"id": "C29", "title": "Callbacks see every step and stop at the first request", "statement": "Every callback is called once after each tell, with the result so far, also when another callback requested a stop; minimisation performs no further evaluation after the first step at which some callback returns a truthy value.", "quantifier": "all callback behaviours (stateful), all objectives", "why_tests_cant": "callbacks are arbitrary stateful programs", "anchors": ["skopt/optimizer/base.py:base_minimize", "skopt/utils.py:eval_callbacks", "skopt/callbacks.py:check_callback"]}
{"id": "C30", "title": "Minimiser equals the ask/tell loop", "statement": "base_minimize gives the same sequence of evaluations and the same result as running an Optimizer by hand with ask and tell with the same settings.", "quantifier": "all objectives, surrogates and random outcomes", "why_tests_cant": "all executions", "anchors": ["skopt/optimizer/base.py:base_minimize", "skopt/optimizer/optimizer.py:Optimizer.run"]}
{"id": "C31", "title": "dummy_minimize samples at random with any x0", "statement": "dummy_minimize accepts any valid x0 given as one point or a list of points and evaluates n_calls points, the remaining ones from the initial point generator, never needing a surrogate.", "quantifier": "all spaces, n_calls, x0 forms, generators", "why_tests_cant": "combinations of argument forms", "anchors": ["skopt/optimizer/dummy.py:dummy_minimize", "skopt/optimizer/base.py:base_minimize"]}
{"id": "C32", "title": "DeltaYStopper criterion", "statement": "DeltaYStopper(delta, n_best) requests a stop exactly when at least n_best observations exist and the n_best smallest observed values differ by less than delta; otherwise it gives False or no opinion.", "quantifier": "all observation histories, deltas, n_best >= 1", "why_tests_cant": "all histories", "anchors": ["skopt/callbacks.py:DeltaYStopper._criterion"]}
{"id": "C33", "title": "DeltaXStopper criterion", "statement": "DeltaXStopper(delta) requests a stop exactly when at least two points were evaluated and the distance between the last two is less than delta.", "quantifier": "all histories", "why_tests_cant": "all histories", "anchors": ["skopt/callbacks.py:DeltaXStopper._criterion", "skopt/space/space.py:Space.distance"]}
{"id": "C34", "title": "HollowIterationsStopper criterion", "statement": "HollowIterationsStopper(n, threshold) requests a stop exactly when more than n observations exist and the best value at the current step improves on the best value n steps ago by at most threshold.", "quantifier": "all histories, n, thresholds", "why_tests_cant": "all histories", "anchors": ["skopt/callbacks.py:HollowIterationsStopper._criterion"]}
{"id": "C35", "title": "Threshold and deadline stoppers", "statement": "ThresholdStopper stops exactly when some observed value is at or below the threshold; DeadlineStopper's recorded iteration times add up to the elapsed time and it stops exactly when the remaining time is at most the longest iteration so far, so that if no later iteration is longer than all earlier ones, the budget is not exceeded.", "quantifier": "all histories, all clocks", "why_tests_cant": "all clock behaviours", "anchors": ["skopt/callbacks.py:ThresholdStopper._criterion", "skopt/callbacks.py:DeadlineStopper._criterion", "skopt/callbacks.py:TimerCallback"]}
{"id": "C36", "title": "Checkpoint survives a crash", "statement": "With CheckpointSaver, after a crash at any moment of the optimisation the checkpoint file contains the complete result of some completed step, at most one step old.", "quantifier": "all crash points during the optimisation, including during the write", "why_tests_cant": "crash points inside a write cannot be tested exhaustively", "anchors": ["skopt/callbacks.py:CheckpointSaver", "skopt/utils.py:dump"]}
{"id": "C37", "title": "dump without objective keeps the caller's result intact", "statement": "`dump(res, store_objective=False)` writes the result without the objective and leaves the result object in memory, with its objective, unchanged.", "quantifier": "all results", "why_tests_cant": "object graph sharing", "anchors": ["skopt/utils.py:dump", "skopt/utils.py:load"]}
{"id": "C38", "title": "BayesSearchCV evaluates exactly the budget", "statement": "BayesSearchCV.fit without callback evaluates, for each search space with its iteration count n, exactly n candidates in batches of at most n_points, and total_iterations equals the number of candidates.", "quantifier": "all lists of spaces, n_iter, n_points", "why_tests_cant": "arithmetic on all combinations", "anchors": ["skopt/searchcv.py:BayesSearchCV._run_search", "skopt/searchcv.py:BayesSearchCV._step", "skopt/searchcv.py:BayesSearchCV.total_iterations"]}
{"id": "C39", "title": "BayesSearchCV tells each candidate its own score", "statement": "The value told to the optimizer for each suggested candidate is minus the mean test score that cross-validation computed for that very candidate, across all batches and several search spaces.", "quantifier": "all batches, scores and spaces", "why_tests_cant": "offset arithmetic over growing result lists", "anchors": ["skopt/searchcv.py:BayesSearchCV._step"]}
{"id": "C40", "title": "Named points and positional points convert back and forth", "statement": "`point_aslist(space, point_asdict(space, x))` is x and `point_asdict` maps each parameter name to the coordinate of the dimension created for that name, for every search space dictionary.", "quantifier": "all search space dicts, all points", "why_tests_cant": "any number of parameters and any order of names", "anchors": ["skopt/utils.py:point_asdict", "skopt/utils.py:point_aslist", "skopt/utils.py:dimensions_aslist"]}
{"id": "C41", "title": "use_named_args passes each coordinate under its dimension's name", "statement": "A function decorated with use_named_args(dims) and called with a list x calls the original function with keyword argument dims[i].name = x[i] for all i, and raises ValueError if the length is wrong, or at decoration time if a name is missing or an element is no dimension.", "quantifier": "all dimension lists and points", "why_tests_cant": "all lengths", "anchors": ["skopt/utils.py:use_named_args", "skopt/utils.py:check_dimension_names", "skopt/utils.py:check_list_types"]}
{"id": "C42", "title": "Initial point generators fill the request inside the space", "statement": "Each initial point generator (lhs, halton, hammersly, sobol, grid) returns exactly n_samples points that belong to the space.", "quantifier": "all spaces, all n_samples, all random outcomes", "why_tests_cant": "all sizes and random outcomes", "anchors": ["skopt/sampler/lhs.py:Lhs.generate", "skopt/sampler/halton.py:Halton.generate", "skopt/sampler/hammersly.py:Hammersly.generate", "skopt/sampler/sobol.py:Sobol.generate", "skopt/sampler/grid.py:Grid.generate"]}
{"id": "C43", "title": "Latin hypercube stratification", "statement": "Among the n points generated by Lhs (every lhs_type and criterion), each one-dimensional projection before warping has exactly one point in each of the n intervals [i/n, (i+1)/n), in exact arithmetic. In float64 the points can be assigned to the intervals one to one, each lying in its interval up to 2^-49.", "quantifier": "all n, all dimensions, all random permutations and jitters", "why_tests_cant": "all permutations", "anchors": ["skopt/sampler/lhs.py:Lhs.generate", "skopt/sampler/lhs.py:Lhs._lhs_normalized", "skopt/sampler/lhs.py:_random_permute_matrix"]}
{"id": "C44", "title": "Van der Corput sequence is well distributed", "statement": "The radical-inverse samples used by Halton and Hammersly lie in [0,1), are pairwise distinct, and any b^k consecutive aligned indices visit each interval [j/b^k,(j+1)/b^k) exactly once. In float64 the samples lie in [0,1), differ for different indices, and any b^k consecutive indices can be assigned to these intervals one to one, each sample lying in its interval up to 2^-45, as long as the base times the index is at most 2^44.", "quantifier": "all bases b >= 2, all index ranges, all k", "why_tests_cant": "number-theoretic statement over all indices", "anchors": ["skopt/sampler/halton.py:_van_der_corput_samples"]}
{"id": "C45", "title": "Halton bases are distinct primes", "statement": "The prime table built for Halton and Hammersly contains exactly the primes up to its limit, in increasing order, and the construction always yields enough of them; hence each dimension uses a different prime base.", "quantifier": "all numbers of dimensions", "why_tests_cant": "infinitely many limits", "anchors": ["skopt/sampler/halton.py:_create_primes", "skopt/sampler/halton.py:Halton.generate"]}
{"id": "C46", "title": "Sobol sequence is stratified in every dimension", "statement": "For each dimension of the generator, the first 2^k points of the sequence visit each dyadic interval of length 2^-k exactly once (k up to the word size), all points are in [0,1), and every generate call returns the same stretch of the sequence (starting at `skip`) whatever was generated before.", "quantifier": "all k, all dimensions, all histories of earlier generate calls", "why_tests_cant": "2^30 points per dimension", "anchors": ["skopt/sampler/sobol.py:Sobol._sobol", "skopt/sampler/sobol.py:Sobol.init", "skopt/sampler/sobol.py:Sobol.generate"]}
{"id": "C47", "title": "Grid design is a full regular grid", "statement": "Grid.generate returns n_samples points taken from the Cartesian product of regularly spaced values, without repetition.", "quantifier": "all numbers of samples and dimensions", "why_tests_cant": "all sizes", "anchors": ["skopt/sampler/grid.py:Grid.generate", "skopt/sampler/grid.py:_quadrature_combine"]}
{"id": "C48", "title": "Generators leave the space's transformers as they were", "statement": "After generate returns, the space's transformer settings are those from before the call.", "quantifier": "all spaces and generators", "why_tests_cant": "all spaces", "anchors": ["skopt/sampler/lhs.py:Lhs.generate", "skopt/space/space.py:Space.set_transformer", "skopt/space/space.py:Space.get_transformer"]}
{"id": "C49", "title": "Acquisition values are meaningful", "statement": "The probability of improvement is in [0,1], the expected improvement is non-negative, both are 0 where the predicted std is 0, and LCB equals mean minus kappa std.", "quantifier": "all means, stds, incumbents, xi", "why_tests_cant": "continuum", "anchors": ["skopt/acquisition.py:gaussian_ei", "skopt/acquisition.py:gaussian_pi", "skopt/acquisition.py:gaussian_lcb"]}
{"id": "C50", "title": "Expected improvement equals its integral definition and is monotone", "statement": "gaussian_ei equals the expectation of max(y_opt - xi - Y, 0) for Y normal with the predicted mean and std; it decreases in the predicted mean and increases in the predicted std; PI equals P(Y < y_opt - xi).", "quantifier": "all means, stds, incumbents, xi", "why_tests_cant": "continuum", "anchors": ["skopt/acquisition.py:gaussian_ei", "skopt/acquisition.py:gaussian_pi"]}
{"id": "C51", "title": "Acquisition gradients are the derivatives", "statement": "The gradients returned by LCB, EI, PI, EIps and PIps are the derivatives of the returned values along any coordinate, for any differentiable predicted mean and std.", "quantifier": "all differentiable mean and std functions, all points with positive std", "why_tests_cant": "continuum", "anchors": ["skopt/acquisition.py:_gaussian_acquisition", "skopt/acquisition.py:gaussian_ei", "skopt/acquisition.py:gaussian_pi", "skopt/acquisition.py:gaussian_lcb"]}
{"id": "C52", "title": "Kernel gradients are the derivatives", "statement": "gradient_x of each kernel (RBF, Matern, RationalQuadratic, ExpSineSquared, DotProduct, Constant, White, Sum, Product, Exponentiation) is the gradient of the kernel value with respect to x.", "quantifier": "all points, training points, length scales and all composed kernels", "why_tests_cant": "continuum; all kernel expressions", "anchors": ["skopt/learning/gaussian_process/kernels.py"]}
{"id": "C53", "title": "Hamming kernel is a similarity", "statement": "HammingKernel values are in (0,1], symmetric, 1 exactly for equal points, decreasing in the number of mismatches, and the reported hyper-parameter gradient is its derivative.", "quantifier": "all points and positive length scales", "why_tests_cant": "continuum", "anchors": ["skopt/learning/gaussian_process/kernels.py:HammingKernel"]}
{"id": "C54", "title": "GP posterior gradients are the derivatives of the posterior", "statement": "The mean and std gradients returned by GaussianProcessRegressor.predict are the derivatives of the mean and std that it returns.", "quantifier": "all training sets, kernels and points", "why_tests_cant": "continuum", "anchors": ["skopt/learning/gaussian_process/gpr.py:GaussianProcessRegressor.predict"]}
{"id": "C55", "title": "Observation noise is added once and excluded from predictions", "statement": "Fitting GaussianProcessRegressor with noise='gaussian' adds one white-noise term to the kernel, which is zeroed for prediction, also after repeated fits.", "quantifier": "all kernels and numbers of fits", "why_tests_cant": "all kernel expressions and sequences of fits", "anchors": ["skopt/learning/gaussian_process/gpr.py:GaussianProcessRegressor.fit", "skopt/learning/gaussian_process/gpr.py:_param_for_white_kernel_in_Sum"]}
{"id": "C56", "title": "Forest uncertainty is the law of total variance", "statement": "The std returned by the forest regressors is the square root of the mean leaf variance plus the variance of the tree means, hence non-negative and at least each part.", "quantifier": "all forests", "why_tests_cant": "all numbers of trees and leaves", "anchors": ["skopt/learning/forest.py:_return_std"]}
{"id": "C57", "title": "GBRT uncertainty is non-negative", "statement": "The std returned by GradientBoostingQuantileRegressor.predict is non-negative and its interval covers the quantile predictions it was computed from.", "quantifier": "all quantile models", "why_tests_cant": "all models", "anchors": ["skopt/learning/gbrt.py:GradientBoostingQuantileRegressor.predict"]}
{"id": "C58", "title": "Convergence trace is the running minimum", "statement": "plot_convergence draws, for each i, the minimum of the first i observed values: a non-increasing trace that ends at result.fun; plot_regret draws the cumulative regret, which is never negative and never falls when the true minimum is not above any observed value.", "quantifier": "all histories", "why_tests_cant": "all histories", "anchors": ["skopt/plots.py:plot_convergence", "skopt/plots.py:plot_regret"]}
{"id": "C59", "title": "Partial dependence varies one dimension and keeps the others", "statement": "partial_dependence_1D/2D evaluate the model at samples in which exactly the columns of the plotted dimension(s) are replaced by the plotted value and all other columns are those of the given samples; values are averages of model predictions.", "quantifier": "all spaces, dimensions, samples and models", "why_tests_cant": "column offsets over all spaces", "anchors": ["skopt/plots.py:partial_dependence_1D", "skopt/plots.py:partial_dependence_2D", "skopt/plots.py:_evenly_sample"]}
{"id": "C60", "title": "Expected minimum is not worse than the sampled starts", "statement": "expected_minimum returns a point of the space with a predicted value no larger than any start considered, and expected_minimum_random_sampling returns the sampled point with least prediction.", "quantifier": "all results, models and random outcomes", "why_tests_cant": "all models", "anchors": ["skopt/utils.py:expected_minimum", "skopt/utils.py:expected_minimum_random_sampling"]}
{"id": "C61", "title": "A suggested point can always be told", "statement": "The point returned by `ask()` is accepted by `tell(x, y)` with any finite y: the ask/evaluate/tell loop never fails on validation.", "quantifier": "all spaces, surrogates and histories", "why_tests_cant": "unbounded loops and arbitrary surrogates", "anchors": ["skopt/optimizer/optimizer.py:Optimizer.ask", "skopt/optimizer/optimizer.py:Optimizer.tell", "skopt/utils.py:check_x_in_space"]}
{"id": "C62", "title": "With sampling, the suggestion minimises the acquisition function over the candidates", "statement": "With acq_optimizer='sampling', the point suggested after a fit is the sampled candidate with the least acquisition value, computed with the newest surrogate and the least observed value, clipped to the warped bounds and mapped back to the space.", "quantifier": "all spaces, surrogates, acquisition functions, random outcomes and histories", "why_tests_cant": "the surrogate and its acquisition values are arbitrary; tests only see well-behaved ones", "anchors": ["skopt/optimizer/optimizer.py:Optimizer._tell"]}
{"id": "C63", "title": "Everything a minimiser reports lies in the space, best first", "statement": "When a minimiser returns, every point it evaluated or was given lies in result.space, and result.x, result.fun are the earliest point with the least value, if no value is NaN.", "quantifier": "all minimisers, objectives, spaces, surrogates, callbacks and random outcomes", "why_tests_cant": "unbounded runs and arbitrary surrogates", "anchors": ["skopt/optimizer/base.py:base_minimize", "skopt/optimizer/optimizer.py:Optimizer.tell"]}
{"id": "C64", "title": "Halton points are jointly balanced", "statement": "For the default bases, take any powers of the bases, one per dimension, and divide each axis of the unit cube into that many equal parts: among any as many consecutive points of the design as there are boxes, each box contains exactly one, in exact arithmetic. In float64 they can be assigned to the boxes one to one, each lying in its box up to 2^-45 in every coordinate, as long as the bases times the indices are at most 2^45.", "quantifier": "all numbers of dimensions and samples, all powers, all stretches of the design", "why_tests_cant": "a number-theoretic statement (Chinese remainder theorem) over all indices", "anchors": ["skopt/sampler/halton.py:Halton.generate", "skopt/sampler/halton.py:_van_der_corput_samples"]}
{"id": "C65", "title": "Lhs criteria keep the best design drawn", "statement": "With criterion 'maximin' (or 'ratio') Lhs returns one of the designs drawn, whose least distance (ratio) is not worse than that of any of the `iterations` candidates.", "quantifier": "all distance functions, numbers of iterations and random outcomes", "why_tests_cant": "a running optimum over any number of candidates", "anchors": ["skopt/sampler/lhs.py:Lhs.generate"]}
{"id": "C66", "title": "Every value of an Integer and every category can be drawn", "statement": "For every integer between low and high (every category of a Categorical) there is an outcome of the random generator for which rvs returns it, under every transform and prior that accepts the dimension; likewise for every point of a whole Space, Real coordinates below the upper bound and categories of positive probability.", "quantifier": "all bounds, transforms and values", "why_tests_cant": "reachability of every value; tests only see the values that happen to be drawn", "anchors": ["skopt/space/space.py:Integer", "skopt/space/space.py:Categorical.rvs", "skopt/space/space.py:Dimension.rvs"]}
{"id": "C67", "title": "Observations shrink the uncertainty of the Gaussian process", "statement": "The std predicted by a fitted GaussianProcessRegressor is at most that of the prior with the same kernel; at a training point it is at most that of the noise, and without noise the mean there is the observed value and the std is 0.", "quantifier": "all kernels without white noise, training sets and points", "why_tests_cant": "all kernels and data, exact arithmetic", "anchors": ["skopt/learning/gaussian_process/gpr.py:GaussianProcessRegressor.fit", "skopt/learning/gaussian_process/gpr.py:GaussianProcessRegressor.predict"]}
{"id": "C68", "title": "The acquisition gradient followed for a Gaussian process is the true gradient", "statement": "gaussian_acquisition_1D with return_grad and a fitted GaussianProcessRegressor returns the gradient of the value it returns without, for LCB, EI and PI, so the lbfgs search descends the acquisition function.", "quantifier": "all training sets, kernels, points, y_opt, xi, kappa", "why_tests_cant": "continuum; composition of kernel, posterior and acquisition derivatives", "anchors": ["skopt/acquisition.py:gaussian_acquisition_1D", "skopt/learning/gaussian_process/gpr.py:GaussianProcessRegressor.predict", "skopt/learning/gaussian_process/kernels.py"]}
{"id": "C69", "title": "A known minimum is drawn on the convergence plot", "statement": "plot_convergence(..., true_minimum=m) draws a horizontal line at m, for every number m.", "quantifier": "all results and all numbers m", "why_tests_cant": "all numbers, the special ones included", "anchors": ["skopt/plots.py:plot_convergence"]}
{"id": "C70", "title": "Points are drawn at the ticks that carry their values", "statement": "In plot_evaluations, plot_objective and plot_objective_2D every evaluated point and the minimum are placed, along a Categorical axis, at the coordinate whose tick label is the name of their category, and along other axes at their value.", "quantifier": "all spaces, points of the space and categories", "why_tests_cant": "all categories and mixed spaces; pictures are hardly compared in tests", "anchors": ["skopt/plots.py:_map_categories", "skopt/plots.py:_cat_format"]}
{"id": "C71", "title": "Histograms count the evaluated values", "statement": "plot_histogram shows for a Categorical dimension one bar per category that occurs, as high as it occurs often in the evaluated points, and for other dimensions the evaluated values with bins between the bounds (spaced on a log scale for a log-uniform prior).", "quantifier": "all results and dimensions", "why_tests_cant": "all histories and category lists", "anchors": ["skopt/plots.py:plot_histogram"]}
{"id": "C72", "title": "The evaluations plot shows what was evaluated", "statement": "plot_evaluations returns for every choice of dimensions a grid whose panel (i, i) is the histogram of the i-th dimension shown and whose panel (i, j), j < i, contains every evaluated point and the best point at its j-th and i-th coordinates.", "quantifier": "all results, spaces and choices of dimensions", "why_tests_cant": "all spaces with constant dimensions and subsets of dimensions", "anchors": ["skopt/plots.py:plot_evaluations"]}
{"id": "C73", "title": "The objective plot shows the partial dependence of the dimensions shown", "statement": "plot_objective returns a grid whose panel (i, i) is the partial dependence on the i-th dimension shown, with the minimum marked, and whose panel (i, j) is the partial dependence with the j-th dimension along x and the i-th along y, averaged over the points asked for, with the evaluated points and the minimum at their coordinates on the same axes; plot_objective_2D shows one such panel. The minimum is the best point of the result, the least predicted one, or the one given, as asked; a list of the wrong length, a name not known, and 'expected_minimum' with categorical dimensions are refused.", "quantifier": "all results, models, spaces, choices of dimensions, sample sources and minima", "why_tests_cant": "all surrogates and spaces; indices of dimension, column and axis can be confused without any error", "anchors": ["skopt/plots.py:plot_objective", "skopt/plots.py:plot_objective_2D", "skopt/plots.py:_evaluate_min_params"]}
{"id": "C74", "title": "Each surrogate of a run was fitted to the observations made before it", "statement": "The models kept by an Optimizer were each fitted to the first n of its points (warped) and values, with n not falling from model to model; in the result of a minimiser result.models[i] was fitted to exactly the first n_initial_points + len(x0) + i points and values, and there is one model for each observation from the last initial one on.", "quantifier": "all sequences of ask, tell, run, update_next and get_result; all minimisers, objectives, spaces, surrogates, callbacks and random outcomes", "why_tests_cant": "which of the growing data an earlier model saw cannot be read off the fitted model; unbounded runs", "anchors": ["skopt/optimizer/optimizer.py:Optimizer._tell", "skopt/optimizer/base.py:base_minimize"]}
{"id": "C75", "title": "The plot of a surrogate shows the model, its data and the next point", "statement": "plot_gaussian_process(res, n_calls=k) draws, over evenly spread values of the dimension, the predictions of the k-th model (the last one if k < 0) at these values with a band of 1.96 std to both sides, the objective likewise, the observations that model was fitted to, and the acquisition function computed from that model and the least of these observations, with its best value marked.", "quantifier": "all results of minimisers, models, one-dimensional spaces and k", "why_tests_cant": "all surrogates; pictures are hardly compared in tests", "anchors": ["skopt/plots.py:plot_gaussian_process", "skopt/plots.py:_evenly_sample"]}
{"id": "C76", "title": "With lbfgs, the suggestion is the best end of searches started from the best candidates", "statement": "When an optimizer that uses lbfgs has a surrogate and a single acquisition function, the point it will suggest next comes from these steps: candidates are drawn from the space; the acquisition function is evaluated on all of them with the newest surrogate and the least observed value; one search is started from each of the n_restarts_optimizer candidates with the least values (never twice from the same one, and from all of them if there are fewer); the end with the least value is kept; if no dimension is categorical it is clipped to the warped bounds; and it is mapped back to the space.", "quantifier": "for all spaces, surrogates, acquisition functions, search routines, random states and histories of an optimizer whose tell succeeds, whose observations are numbers and whose sort sorts", "why_tests_cant": "A test sees one suggestion of one run; a suggestion from the wrong start, or from the second best end, is still a point of the space.", "anchors": ["skopt/optimizer/optimizer.py:Optimizer._tell"]}
{"id": "C77", "title": "Sobol points are balanced in several dimensions at once and follow the published recurrence", "statement": "Without randomisation, divide [0,1) into 2^a equal parts in each of some dimensions of the design (a may differ between dimensions). Every aligned stretch of 2^m points of the sequence has the same number of points in each of the resulting boxes, namely 2^m divided by the number of boxes, as soon as m is at least the sum over these dimensions of a + e - 1, where e is the degree of the polynomial of the dimension (1 for the first two, at most 8). Points 2^(t+1) - 1 of dimension j show its t-th direction number, and these satisfy the recurrence of the polynomials published by Bratley and Fox.", "quantifier": "for all dimensions up to 40, skips below 2^30, histories of the object, stretches, boxes and direction numbers; exact arithmetic", "why_tests_cant": "The number of boxes, stretches and sets of dimensions is astronomical; a wrong initial number or polynomial leaves each dimension balanced on its own and is seen only in joint counts, one at a time.", "anchors": ["skopt/sampler/sobol.py:Sobol.init", "skopt/sampler/sobol.py:Sobol._sobol", "skopt/sampler/sobol.py:Sobol.generate"]}
{"id": "C78", "title": "Kernel matrices are covariance matrices", "statement": "For every kernel built from skopt's kernels with hyper-parameters in range, and every list of points, repeated ones included, the kernel matrix is square and symmetric and gives no linear combination a negative variance; adding a positive alpha to its diagonal makes it positive definite, so that GaussianProcessRegressor.fit can factorise it.", "quantifier": "for all kernel expressions, hyper-parameters, numbers of features and lists of points; exact arithmetic", "why_tests_cant": "A test looks at a few matrices; one negative eigenvalue of one composite kernel on one set of points makes fit fail or a variance negative.", "anchors": ["skopt/learning/gaussian_process/kernels.py:RBF", "skopt/learning/gaussian_process/kernels.py:Matern", "skopt/learning/gaussian_process/kernels.py:RationalQuadratic", "skopt/learning/gaussian_process/kernels.py:ExpSineSquared", "skopt/learning/gaussian_process/kernels.py:ConstantKernel", "skopt/learning/gaussian_process/kernels.py:WhiteKernel", "skopt/learning/gaussian_process/kernels.py:DotProduct", "skopt/learning/gaussian_process/kernels.py:Exponentiation", "skopt/learning/gaussian_process/kernels.py:Sum", "skopt/learning/gaussian_process/kernels.py:Product", "skopt/learning/gaussian_process/kernels.py:HammingKernel", "skopt/learning/gaussian_process/gpr.py:GaussianProcessRegressor.fit"]}
{"id": "C79", "title": "Predicted covariances agree with predicted deviations and never exceed the prior", "statement": "After fit, predict(X, return_cov=True) returns the means that predict(X, return_std=True) returns and a matrix that is square, symmetric and gives no linear combination of the points a negative variance; its diagonal holds the squares of the returned deviations; no linear combination has a larger variance than under the prior.", "quantifier": "for all kernels with hyper-parameters in range, tunings that keep them so, training sets, noise settings, alpha >= 0 and lists of points; exact arithmetic", "why_tests_cant": "All kernels, data and sets of points; joint variances are not looked at by any test.", "anchors": ["skopt/learning/gaussian_process/gpr.py:GaussianProcessRegressor.predict", "skopt/learning/gaussian_process/gpr.py:GaussianProcessRegressor.fit"]}
{"id": "C80", "title": "The benchmark functions have the minima their documentation states", "statement": "In exact arithmetic: bench1 is never below 0 and 0 only at [0]; bench1_with_time returns bench1's value and a constant time; bench2 is never below -5 and -5 only at [5]; bench3 attains a global minimum, lying between -1 and -0.9, and takes values of at most -0.9 only between -0.32 and -0.22; bench4 and bench5 are never below 0 and 0 exactly where every coordinate reads as 0; branin on the square [-5,10] x [0,15] is never below 10/(8 pi) = 0.397887 and equals it at exactly the three points (-pi, 12.275), (pi, 2.275), (9.42478, 2.475); hart6 returns a negative number at every point of six coordinates, attains a global minimum there, between -3.32237 and -3.322368, and takes values below -3.32236 only within 0.001 in every coordinate of the documented point (0.20169, 0.15001, 0.476874, 0.275332, 0.311652, 0.6573).", "quantifier": "All points of the documented domain, all readings of category values as numbers.", "why_tests_cant": "Tests evaluate the functions at the documented points; that no other point is as low is a statement about a continuum.", "anchors": ["skopt/benchmarks.py: bench1, bench1_with_time, bench2, bench3, bench4, bench5, branin, hart6"]}
{"id": "C81", "title": "Fitting a Gaussian process with a positive alpha always succeeds", "statement": "In exact arithmetic, for a kernel with hyper-parameters in range (natural exponents, periodic kernels on one feature only, tuning that keeps them in range), a positive alpha and observations that are not all equal when they are to be normalised, GaussianProcessRegressor.fit succeeds for any number of training points, repeated ones included, and predict then returns one mean and one deviation per row and a covariance of the right shape. The Cholesky factorisation behind it exists exactly for the positive definite matrices and yields their inverse and the solution of the linear system. With alpha = 0 a repeated point is enough to make fit raise LinAlgError.", "quantifier": "All kernels, training sets, observations, noise settings and prediction points as described.", "why_tests_cant": "Tests fit a few data sets; that no data set makes the matrix singular is a statement about all of them.", "anchors": ["skopt/learning/gaussian_process/gpr.py: GaussianProcessRegressor.fit, GaussianProcessRegressor.predict"]}
{"id": "C82", "title": "With a Gaussian process the next suggestion is the most worthwhile candidate", "statement": "Once the initial design is used up and acq_optimizer is \"sampling\", tell(x, y) with a Gaussian process as base_estimator and acq_func \"EI\", \"PI\" or \"LCB\" fits the regressor to all observations so far, draws the candidates from the space, and makes the next suggestion a candidate of greatest worth. Worth is measured under the normal distribution with the mean and deviation that the regressor predicts for the candidate: the expected amount by which the objective lies more than xi below the least observation, the probability that it lies more than xi below it, or kappa deviations minus the mean; with deviation zero the first two are 0. With \"EIps\" and \"PIps\" a second regressor is fitted to the logarithms of the times, and the worth is the first or second times the expectation of the reciprocal of the candidate's time under the normal distribution predicted for its logarithm; what has to be improved upon is then the least of the values and the logarithms of the times taken together.", "quantifier": "All spaces, kernels, observations, candidates, xi and kappa, after any sequence of calls; exact arithmetic.", "why_tests_cant": "What is minimised is spread over the optimizer, the acquisition functions, the regressor and the space; tests look at each alone, or at the suggestions of a few seeds.", "anchors": ["skopt/optimizer/optimizer.py:Optimizer._tell", "skopt/optimizer/optimizer.py:Optimizer.ask", "skopt/acquisition.py:_gaussian_acquisition", "skopt/learning/gaussian_process/gpr.py:GaussianProcessRegressor.fit", "skopt/learning/gaussian_process/gpr.py:GaussianProcessRegressor.predict"]}
{"id": "C83", "title": "A campaign conducted as documented never raises", "statement": "Rounding apart: make an Optimizer with documented settings over dimensions with sensible bounds and call ask, tell, run, get_result, update_next and copy in any order, with points of the space, values of the kind the acquisition function wants, one per point of a batch, asking only while initial points remain, there is no surrogate, or it has been fitted. If the estimator, the minimizer of the acquisition and the generator of initial points do their job, no call raises: ask() returns a point of the space, ask(n) n of them, tell, run and get_result a result. After tell with fit=True there is always something to ask for. A Gaussian process with positive alpha, hyper-parameters in range and normalize_y=False does its job. Without a surrogate (base_estimator \"dummy\") an initial point generator makes ask raise IndexError once its points are used up.", "quantifier": "All spaces, settings, surrogates, random streams and sequences of calls as described.", "why_tests_cant": "The number of interleavings of calls, settings and kinds of dimensions is unlimited; an exception after hours of expensive evaluations loses the campaign.", "anchors": ["skopt/optimizer/optimizer.py:Optimizer.ask", "skopt/optimizer/optimizer.py:Optimizer.tell", "skopt/optimizer/optimizer.py:Optimizer.run", "skopt/optimizer/optimizer.py:Optimizer.copy", "skopt/optimizer/optimizer.py:Optimizer.update_next", "skopt/optimizer/optimizer.py:Optimizer.get_result", "skopt/optimizer/optimizer.py:Optimizer.__init__"]}
{"id": "C84", "title": "A surrogate or initial point generator asked for by name is the documented one, and its kernel fits the space", "statement": "cook_estimator(\"GP\"), \"RF\", \"ET\" and \"GBRT\", in small or capital letters, returns the documented class with the parameters passed as keyword arguments and the documented ones otherwise; n_jobs is accepted by all. \"dummy\" returns None. Other names, keyword arguments that are no parameters, and \"GP\" without a space raise ValueError. cook_initial_point_generator does the same for \"sobol\", \"halton\", \"hammersly\", \"lhs\", \"grid\" and \"random\". An Optimizer made with \"GP\" from any mixture of dimension objects and shorthands has a kernel with one length scale per warped column: its values are defined for every two warped points, lie in (0, 1], and are 1 for equal points; it is a Hamming kernel exactly if all dimensions are categorical. With the acquisition functions per second and categories given as shorthands it does not fit, and no fit can succeed.", "quantifier": "All spellings, keyword arguments, heaps of dimension objects and descriptions of spaces.", "why_tests_cant": "Tests try a few names and spaces; spellings, parameters and mixtures of dimensions are unlimited.", "anchors": ["skopt/utils.py:cook_estimator", "skopt/utils.py:cook_initial_point_generator", "skopt/utils.py:normalize_dimensions", "skopt/optimizer/optimizer.py:Optimizer.__init__"]}
{"id": "C85", "title": "The automatic choice of the acquisition optimizer uses gradients exactly where they exist", "statement": "For a surrogate asked for by name and an acquisition function that is not per second, Optimizer with acq_optimizer=\"auto\" uses \"lbfgs\" only if the surrogate's predict takes the gradient arguments and its kernel can be differentiated at every point of the space, and \"sampling\" only if it cannot at any. acq_optimizer=\"lbfgs\" raises ValueError for the forests, gradient boosting, and a Gaussian process over categories only. Per second the choice is wrong: a random forest is given \"lbfgs\".", "quantifier": "All surrogates by name, spaces, acquisition functions and settings.", "why_tests_cant": "The choice depends on the space and the kernel built for it; a wrong one shows only when the gradient is asked for, after the initial points.", "anchors": ["skopt/utils.py:has_gradients", "skopt/utils.py:cook_estimator", "skopt/optimizer/optimizer.py:Optimizer.__init__"]}
{"id": "C86", "title": "Building an optimizer leaves the caller's dimension objects alone, unless the surrogate is a Gaussian process", "statement": "Making an Optimizer, successfully or not, from a space and a base_estimator that is no Gaussian process changes none of the dimension objects that existed before. Objects that are not in its space are never changed. Objects in the space of a Gaussian process asked for by name are changed in their transformer only, which becomes \"normalize\"; so another optimizer sharing them warps differently from then on.", "quantifier": "All heaps of dimension objects, spaces that share them, estimators and settings.", "why_tests_cant": "Aliasing between optimizers is a property of the whole heap; tests build one optimizer at a time.", "anchors": ["skopt/optimizer/optimizer.py:Optimizer.__init__", "skopt/utils.py:normalize_dimensions", "skopt/utils.py:cook_estimator", "skopt/space/space.py:Space.__init__", "skopt/space/space.py:check_dimension"]}
{"id": "C87", "title": "Changing transformers changes the warping and nothing else, and can be undone", "statement": "Space.set_transformer, with a name or a list, whether or not it raises, leaves bounds, priors, categories, names, membership and distances as they were. If it returns, get_transformer gives what was asked for, and the transformed size and bounds are those of the transformer in place. It returns if every dimension offers the transformer and raises ValueError if one does not. Setting what get_transformer() returned before restores the space exactly, even after a call that raised. set_transformer_by_type changes the dimensions of the type and no others. A request that raises does not leave the space as it was: reported bounds and actual warping then disagree.", "quantifier": "All spaces and requests.", "why_tests_cant": "All spaces, requests and sequences of them; the inconsistent state shows only after an exception was caught.", "anchors": ["skopt/space/space.py:Space.set_transformer", "skopt/space/space.py:Space.set_transformer_by_type", "skopt/space/space.py:Space.get_transformer", "skopt/space/space.py:Real.set_transformer", "skopt/space/space.py:Integer.set_transformer", "skopt/space/space.py:Categorical.set_transformer"]}
{"id": "C88", "title": "Sobol points meet every corner of the space equally often", "statement": "Cut each of the first dimensions of the space into halves (up to 20 dimensions) or quarters (up to 6 dimensions). In every stretch of 2^m consecutive Sobol points whose first index is a multiple of 2^m, where 2^m is at least the number of cells, every cell contains the same number of points. With 21 dimensions this fails: among the first 2^21 points none lies in a certain cell of halves.", "quantifier": "All numbers of dimensions up to 40, skips below 2^30, call sequences, stretches and cells.", "why_tests_cant": "2^20 cells and arbitrarily late stretches; which cells are met depends on all the initial direction numbers at once.", "anchors": ["skopt/sampler/sobol.py:Sobol.init", "skopt/sampler/sobol.py:Sobol._sobol", "skopt/sampler/sobol.py:Sobol.generate"]}
{"id": "C89", "title": "A space read from YAML has the dimensions listed in the file", "statement": "Space.from_yaml returns a space whose dimensions are, in order, what the entries of the chosen list describe: class, bounds, categories, prior, base, transform, name and dtype as written, defaults for what is missing, in small or capital letters, the later of two options of the same name; without a namespace the first list of the file, else the one named. It succeeds whenever every entry describes a dimension. A file that is neither a list nor a dict and an unknown namespace are refused. Two exceptions: an entry whose class is misspelt is left out silently, and the layout shown in the documentation, with the options beside the class instead of below it, raises AttributeError.", "quantifier": "All files as parsed by YAML, namespaces and number types.", "why_tests_cant": "All combinations of options, spellings and repetitions; the comparison of spaces used by the tests ignores missing dimensions.", "anchors": ["skopt/space/space.py:Space.from_yaml", "skopt/space/space.py:Real.__init__", "skopt/space/space.py:Integer.__init__", "skopt/space/space.py:Categorical.__init__"]}
{"id": "C90", "title": "With forests and boosted trees, the next suggestion is the most worthwhile candidate", "statement": "With a random forest or extra trees regressor as base_estimator and acq_optimizer \"sampling\", once the initial design is used up, the point that ask() returns comes from the drawn candidate whose expected improvement, probability of improvement or lower confidence bound is best, computed from the mean of the trees' answers and the standard deviation that the law of total variance gives for the trees grown on all observations. With gradient boosted quantile trees the mean is the median's prediction and the deviation half the distance between the predictions for 0.16 and 0.84.", "quantifier": "All spaces, reachable optimizers, observations, generators, settings of the acquisition function and ways of growing trees.", "why_tests_cant": "Tests check that suggestions lie in the space; which candidate is chosen, and from what mean and deviation, depends on the growing of the trees, which is random.", "anchors": ["skopt/optimizer/optimizer.py:Optimizer._tell", "skopt/acquisition.py:_gaussian_acquisition", "skopt/learning/forest.py:_return_std", "skopt/learning/gbrt.py:GradientBoostingQuantileRegressor.predict"]}
{"id": "C91", "title": "The minimisers, called as documented, succeed", "statement": "base_minimize, gp_minimize, forest_minimize and gbrt_minimize return a result, after exactly n_calls evaluations unless a callback stops them earlier, whenever they are called as documented: a space of dimensions that can be transformed, x0 in the space, one value in y0 for each point or none, enough calls for the initial points, a known acquisition function, an objective with a number (or a number and a positive time) everywhere in the space and callbacks that return. It does not depend on the values of the objective, on the random state, or on the initial points generator.", "quantifier": "All spaces, objectives, given points and values, callbacks, random states, acquisition functions and numbers of calls within the documented ranges.", "why_tests_cant": "A test shows that one call with one seed did not raise. That no combination of documented arguments and no run of values of the objective leads to an exception requires an invariant of the optimizer.", "anchors": ["skopt/optimizer/base.py:base_minimize", "skopt/optimizer/gp.py:gp_minimize", "skopt/optimizer/forest.py:forest_minimize", "skopt/optimizer/gbrt.py:gbrt_minimize", "skopt/optimizer/optimizer.py:Optimizer"]}
{"id": "C92", "title": "With normalisation of the observations, documented calls succeed once two observations differ", "statement": "With the default Gaussian process, which normalises the observations (normalize_y=True), every ask, tell, run, get_result and copy made as documented on an optimizer that arose from such calls is answered, unless all values observed so far are equal (with a per-second acquisition function: all values or all times). No observation is lost over a call that fails. gp_minimize with that regressor returns a result under the same condition, in particular whenever two of the values given as y0 differ.", "quantifier": "All spaces, sequences of documented calls, observations, random states and acquisition functions; regressors with any kernel, noise setting, positive alpha and either value of normalize_y.", "why_tests_cant": "Which observations make a call fail depends on the whole history, including the constant lies told to a copy; tests use objectives that vary.", "anchors": ["skopt/optimizer/optimizer.py:Optimizer.ask", "skopt/optimizer/optimizer.py:Optimizer.tell", "skopt/optimizer/optimizer.py:Optimizer.copy", "skopt/optimizer/gp.py:gp_minimize", "skopt/learning/gaussian_process/gpr.py:GaussianProcessRegressor.fit", "skopt/utils.py:cook_estimator"]}
{"id": "C93", "title": "Every initial point generator that can be named yields points of the space in float64", "statement": "initial_point_generator=\"sobol\", \"halton\", \"hammersly\", \"lhs\" or \"grid\", in any capitalisation, with a space of Real, Integer and Categorical dimensions whose bounds are finite: the generator returns n_initial_points points, each in the space, in spite of rounding in the sequences, in the shifts and in mapping them to the space. So every suggestion of the optimizer lies in the space, during the initial design and after it, and dummy_minimize with such a generator returns a result.", "quantifier": "All spaces of sampled dimensions, numbers of points below the stated limits, random states, roundings of pow, log10, exp and log, reachable optimizers and objectives.", "why_tests_cant": "Rounding could carry a coordinate beyond 1 for one index in 2^35; tests look at a few small designs.", "anchors": ["skopt/utils.py:cook_initial_point_generator", "skopt/optimizer/optimizer.py:Optimizer.__init__", "skopt/sampler/halton.py:Halton.generate", "skopt/sampler/hammersly.py:Hammersly.generate", "skopt/sampler/lhs.py:Lhs.generate", "skopt/sampler/grid.py:Grid.generate", "skopt/sampler/sobol.py:Sobol.generate", "skopt/optimizer/dummy.py:dummy_minimize"]}
{"id": "C94", "title": "A Gaussian process does not depend on the order of the observations nor, when it normalises them, on their unit", "statement": "Fitting a GaussianProcessRegressor to the same observations in another order succeeds as well and gives the same predictions: means, standard deviations, gradients and covariances, at all points. With normalize_y=True, fitting it to a y + b instead of y (a > 0) gives the means a m + b, the standard deviations and the gradient of the mean multiplied by a and the covariances multiplied by the square of a.", "quantifier": "All kernels, noise settings, observations (repeated points included), permutations, units, zeros and points at which predictions are made.", "why_tests_cant": "Matrices are permuted and factorised differently in each order; tests compare one order and one scale.", "anchors": ["skopt/learning/gaussian_process/gpr.py:GaussianProcessRegressor.fit", "skopt/learning/gaussian_process/gpr.py:GaussianProcessRegressor.predict"]}
{"id": "C95", "title": "verbose=True reports every iteration with its number, the newest value, the minimum so far and the time it took", "statement": "A minimisation with verbose=True prints, for each time the callbacks are called, one announcement before and one report after, numbered 1, 2, ...; the announcement of an iteration beyond n_calls is left out. Each report gives the newest observation, the least observation so far and the time since the announcement. Without x0, every iteration is one evaluation of the objective; the first n_initial_points of them are described as random points and the others as searches. With x0, the descriptions can be wrong: an evaluation is announced as that of a provided point though the point was not provided. With x0 and y0, an evaluation at a random point is reported where nothing was evaluated.", "quantifier": "All minimisers but dummy_minimize, objectives, spaces, given points and values, other callbacks, random states and clocks.", "why_tests_cant": "Tests only check that some output appears; the numbers and descriptions depend on the interplay of x0, y0, n_initial_points, n_calls and stopping callbacks.", "anchors": ["skopt/callbacks.py:VerboseCallback", "skopt/optimizer/base.py:base_minimize"]}
{"id": "C96", "title": "Telling observations at once is telling them one after the other", "statement": "tell with a list of points and a list of values leaves the optimizer in the same state as telling them one after the other in that order, all but the last with fit=False: the same history, models, next suggestion, gains, random state and answer. If one of the observations is not acceptable (point outside the space, value not a number, or not a pair with positive time for per-second acquisition functions) none is recorded. Whatever is fitted in between, the same observations are recorded in the same order and as many initial points are left.", "quantifier": "All optimizers whose history has one value for each point, lists of points and values, fit flags, regressors, acquisition functions and random generators.", "why_tests_cant": "Tests compare lengths of histories after one batch; equality of all future suggestions concerns the whole state.", "anchors": ["skopt/optimizer/optimizer.py:Optimizer.tell", "skopt/optimizer/optimizer.py:Optimizer._tell", "skopt/optimizer/optimizer.py:Optimizer._check_y_is_valid"]}
{"id": "C97", "title": "The suggestions do not depend on the unit of the objective", "statement": "Take two optimizers made from the same arguments, with a Gaussian process that normalises the observations, acq_optimizer=\"sampling\" and acq_func \"EI\", \"PI\" or \"LCB\", and call them in the same way, except that the second is told a * v + b where the first is told v (a > 0) and that xi is a times as large. All suggestions, single or in batches with any strategy, agree; so do the exceptions; the results hold the same points with the converted values. A batch that needs lies before anything was observed is excepted if b is not 0, since it lies with 0 in every unit. With the default xi in both units the order of candidates can change, and the probabilities of gp_hedge depend on the unit.", "quantifier": "All histories of calls (ask, tell, run, update_next, get_result, copy), spaces, units, random generators, kernels, tuners and values of kappa.", "why_tests_cant": "Tests use one unit per objective; agreement of all suggestions over all histories is a relation between two unbounded executions.", "anchors": ["skopt/optimizer/optimizer.py:Optimizer", "skopt/learning/gaussian_process/gpr.py:GaussianProcessRegressor.fit", "skopt/learning/gaussian_process/gpr.py:GaussianProcessRegressor.predict", "skopt/acquisition.py:gaussian_ei", "skopt/acquisition.py:gaussian_pi", "skopt/acquisition.py:gaussian_lcb"]}
{"id": "C98", "title": "The suggestions do not depend on the units of the parameters", "statement": "Take two optimizers made from the same arguments, except that real dimensions are given in other units: the bounds of uniform ones are stretched and shifted, those of log-uniform ones are stretched. Call them in the same way with converted points. If every dimension whose unit changes is normalised, which a Gaussian process given by name always brings about, then all suggestions, single or in batches, are the converted ones, the exceptions are the same, and the results hold the same values at the converted points. This is so for every surrogate, acquisition function and acq_optimizer. Every generator of initial points returns the converted points. Without normalisation other points can be suggested.", "quantifier": "All histories of calls (ask, tell, run, update_next, get_result, copy), spaces, units, random generators, surrogates, acquisition functions and generators of initial points.", "why_tests_cant": "Tests use one unit per parameter; agreement of all suggestions over all histories is a relation between two unbounded executions.", "anchors": ["skopt/space/space.py:Real", "skopt/space/space.py:Space.transform", "skopt/space/space.py:Space.inverse_transform", "skopt/space/space.py:Space.rvs", "skopt/space/transformers.py:Normalize", "skopt/space/transformers.py:LogN", "skopt/utils.py:normalize_dimensions", "skopt/optimizer/optimizer.py:Optimizer", "skopt/sampler/lhs.py:Lhs.generate"]}
{"id": "C99", "title": "A minimisation can be continued from its result", "statement": "Call any minimiser with x0=result.x_iters and y0=result.func_vals, where result comes from an earlier minimisation, by the same or another minimiser. If the call returns, its result holds the old points and values in the old order, followed by the new ones; the objective is evaluated at the new points only, n_calls times (fewer only if a callback stops); and the best value reported is no worse than before. If both calls are documented ones over the same space and their components do their job, and n_initial_points is at most n_calls, then the second call does return. With a per-second acquisition function the second call raises, since func_vals holds no times.", "quantifier": "All number formats, objectives, minimisers, surrogates, callbacks, random generators, and earlier results (the success: exact arithmetic).", "why_tests_cant": "The documented way to resume after CheckpointSaver; a test can continue a handful of runs, not every run from every result by every minimiser.", "anchors": ["skopt/optimizer/base.py:base_minimize", "skopt/optimizer/optimizer.py:Optimizer.tell", "skopt/utils.py:create_result", "skopt/callbacks.py:CheckpointSaver", "skopt/utils.py:load"]}
{"id": "C100", "title": "With a Gaussian process the next suggestion is worth at least as much as every candidate, whatever the acquisition optimizer", "statement": "Once the initial design is used up, with a Gaussian process as base_estimator, tell(x, y) fits it to all observations so far and draws the candidates from the space. The next suggestion then comes from a point of the warped space, within its bounds, at which the fitted regressor's prediction is worth at least as much as at every candidate: by the expected improvement with acq_func \"EI\", the probability of improvement with \"PI\", the lower confidence bound with \"LCB\", and with \"gp_hedge\" by one of these three. This holds with acq_optimizer \"sampling\", where the point is one of the candidates, and with \"lbfgs\", provided that scipy's minimizer ends within its bounds at a value no worse than the one at its start.", "quantifier": "All histories of calls, spaces, candidates, observations, kernels, numbers of restarts, acquisition functions without times, in exact arithmetic.", "why_tests_cant": "Tests look at single suggestions; that no candidate is worth more involves the integral definition of improvement and the choice among several searches.", "anchors": ["skopt/optimizer/optimizer.py:Optimizer._tell", "skopt/acquisition.py:_gaussian_acquisition", "skopt/acquisition.py:gaussian_acquisition_1D", "skopt/learning/gaussian_process/gpr.py:GaussianProcessRegressor.predict"]}
{"id": "C101", "title": "Further observations never make a Gaussian process less certain", "statement": "With hyper-parameters that do not depend on the observations (optimizer=None, or fixed bounds), fitting GaussianProcessRegressor to points X and to more points, X and X2 together, gives predictions whose deviation at no point x is larger the second time; only where was observed matters for the deviations, not what. With normalize_y=True this holds for deviations in units of the spread of the observations; the deviations themselves can grow, as an outlier widens the spread.", "quantifier": "All kernels, noise settings, alpha, numbers of points, repeated ones included, observed values and points of prediction; exact arithmetic.", "why_tests_cant": "Tests compare deviations at a few points; this is an inequality between inverses of matrices of any size.", "anchors": ["skopt/learning/gaussian_process/gpr.py:GaussianProcessRegressor.fit", "skopt/learning/gaussian_process/gpr.py:GaussianProcessRegressor.predict"]}
{"id": "C102", "title": "Suggestions do not depend on the order of the observations", "statement": "Two optimizers (same settings, same random state) that are told the same observations in different order, in a batch at any time or one by one before the first surrogate is fitted, and are otherwise called alike, answer every later call alike: ask() and ask(n) return the same points, results list the same observations in some order with the same least value. It needs a surrogate for which the order of its training rows does not matter, as a Gaussian process whose hyper-parameters are chosen without regard to the order. So a minimiser that is given the same x0 and y0 in another order evaluates the same points. (With ties, the x of a result may be another of the best points.)", "quantifier": "All spaces, acquisition functions (gp_hedge and per-second ones included), acquisition optimizers, numbers of initial points, batches and orders, sequences of tell, ask, ask(n), run and get_result; exact arithmetic.", "why_tests_cant": "A test tells a few observations in two orders; the claim is about all orders and whatever is called afterwards, through refits, hedging and constant liars.", "anchors": ["skopt/optimizer/optimizer.py:Optimizer.tell", "skopt/optimizer/optimizer.py:Optimizer.ask", "skopt/optimizer/optimizer.py:Optimizer._tell", "skopt/learning/gaussian_process/gpr.py:GaussianProcessRegressor.fit"]}
{"id": "C103", "title": "ask() warns when it suggests a point that has been evaluated before", "statement": "Once the initial design is used up, ask() issues the warning that the objective has been evaluated at this point before if and only if a point told earlier is at most 1e-8 away from the suggestion (differences of numbers and 1 for each different category, added up): always when that very point has been told and, if all dimensions are Integer or Categorical, only then. Suggestions of the initial design are not checked. In a Real dimension no wider than 1e-8 the warning is issued whatever is suggested.", "quantifier": "All spaces, surrogates, acquisition functions, sequences of calls and observations; exact arithmetic, and float64 for the two consequences.", "why_tests_cant": "A test provokes the warning for one point; that it is never missing and, on discrete spaces, never wrong is about all histories.", "anchors": ["skopt/optimizer/optimizer.py:Optimizer._ask", "skopt/space/space.py:Space.distance"]}
{"id": "C104", "title": "Hammersly points are jointly balanced", "statement": "With at least two dimensions, the last coordinate of the i-th of n points generated by Hammersly is i/n before warping, counting from 0. For the default bases, take any powers of the bases, one per dimension but the last, and divide those axes of the unit cube into that many equal parts: every box so obtained, times any stretch of the last axis made of as many n-ths as there are boxes, contains exactly one of the n points, in exact arithmetic. In float64 the last coordinate is i/n up to 2^-51 and the points whose indices lie in that stretch can be assigned to the boxes one to one, each lying in its box up to 2^-45, as long as the bases times the indices are at most 2^45.", "quantifier": "All numbers of dimensions from two on, all numbers of samples, all powers, all stretches.", "why_tests_cant": "A number-theoretic statement about all numbers of samples and all boxes.", "anchors": ["skopt/sampler/hammersly.py:Hammersly.generate", "skopt/sampler/halton.py:Halton.generate"]}
