{"id": "C01", "title": "history holds the best cost of every generation", "statement": "When minimize returns, result.history has exactly one entry per evaluated generation, in order, and entry k is a cost the cost function returned for generation k and is no greater than any other (non-NaN) cost of generation k.", "quantifier": "every configuration, cost function, probabilistic model, initialiser, random stream and sort implementation for which minimize returns", "why_tests_cant": "The claim is about every generation of every run; a test sees one random stream.", "anchors": ["EDAspy/optimization/eda.py:EDA.minimize", "EDAspy/optimization/eda.py:EDA._check_generation_no_parallel"]}
{"id": "C02", "title": "best_ind is the solution whose cost is best_cost", "statement": "result.best_ind is a solution that was evaluated during the run and the cost function returned result.best_cost for it.", "quantifier": "every run that returns", "why_tests_cant": "Whether the first generation stays the best is decided by the random stream; the wrong pair only shows on runs where nothing later is accepted.", "anchors": ["EDAspy/optimization/eda.py:EDA.minimize (lines 172-174, 197-203)"]}
{"id": "C03", "title": "best_cost is the minimum over the whole run", "statement": "result.best_cost equals min(result.history): no evaluated solution had a lower cost.", "quantifier": "every run that returns, every ftol", "why_tests_cant": "The update rule multiplies by (1 + ftol); the drift depends on the sign and sequence of costs over the whole history.", "anchors": ["EDAspy/optimization/eda.py:EDA.minimize (lines 200-204)"]}
{"id": "C04", "title": "best_cost within tolerance for non-positive costs", "statement": "If all costs are <= 0 and ftol >= 0, the running best never increases and best_cost * (1 + ftol) (rounded) is no greater than any cost seen.", "quantifier": "every sequence of generations with non-positive, non-NaN costs", "why_tests_cant": "Needs an invariant over arbitrary cost sequences in IEEE arithmetic.", "anchors": ["EDAspy/optimization/eda.py:EDA.minimize (lines 200-204)"]}
{"id": "C05", "title": "bounded drift of best_cost for non-negative costs", "statement": "If all costs are >= 0 and ftol >= 0, best_cost is at most any history value v inflated by (1 + ftol) once per iteration after v was recorded.", "quantifier": "every sequence of generations with non-negative, non-NaN costs", "why_tests_cant": "The bound is on an unbounded number of iterations.", "anchors": ["EDAspy/optimization/eda.py:EDA.minimize (lines 200-204)"]}
{"id": "C06", "title": "generation budget", "statement": "minimize evaluates at least one and at most max(1, max_iter) generations, and learns from and samples the model exactly once less often than it evaluates.", "quantifier": "every configuration (any integers max_iter, dead_iter) and every run that returns", "why_tests_cant": "Termination and iteration counts for all parameter values.", "anchors": ["EDAspy/optimization/eda.py:EDA.minimize (line 186)"]}
{"id": "C07", "title": "early stopping exactly after dead_iter consecutive non-improvements", "statement": "The run stops before max_iter generations if and only if the last dead_iter iterations were all non-improving (and then immediately); dead_iter <= 0 never stops early.", "quantifier": "every run that returns, all integers dead_iter and max_iter", "why_tests_cant": "Ranges over all improvement patterns.", "anchors": ["EDAspy/optimization/eda.py:EDA.minimize (lines 201-209)"]}
{"id": "C08", "title": "a stagnating run stops", "statement": "If from some generation on every generation's best cost equals the best cost so far (a plateau), the run stops within dead_iter further iterations.", "quantifier": "every plateau value and dead_iter >= 1", "why_tests_cant": "For a positive plateau value the tolerance makes equality count as improvement, so the run never stops early; a test with one sign of cost cannot settle it.", "anchors": ["EDAspy/optimization/eda.py:EDA.minimize (lines 200-209)"]}
{"id": "C09", "title": "n_fev counts the cost function calls", "statement": "result.n_fev equals the number of times the cost function was called.", "quantifier": "every run that returns, with and without init_data", "why_tests_cant": "The counter is computed from size_gen, not counted; init_data of another height breaks it.", "anchors": ["EDAspy/optimization/eda.py:EDA.minimize (line 219)", "EDAspy/optimization/eda.py:EDA.__init__ (line 73)"]}
{"id": "C10", "title": "selection keeps exactly the best individuals", "statement": "At every iteration the individuals the model is trained on (before noise) are the truncation_length lowest-cost members of the current generation joined with the elite, in ascending order of cost, and nobody left out is cheaper than anybody kept.", "quantifier": "every generation, elite, evaluation vector (NaN included, ranked last) and any correct argsort, stable or not", "why_tests_cant": "All orderings and ties; numpy's default argsort is unstable.", "anchors": ["EDAspy/optimization/eda.py:EDA._truncation"]}
{"id": "C11", "title": "the elite is the best of everything seen", "statement": "After every iteration the elite holds the elite_length cheapest of all individuals evaluated so far in the run (the first initial individual counted twice), each with its own cost.", "quantifier": "every run, any number of iterations", "why_tests_cant": "Invariant over unbounded histories.", "anchors": ["EDAspy/optimization/eda.py:EDA._truncation", "EDAspy/optimization/eda.py:EDA.minimize (lines 169-170)"]}
{"id": "C12", "title": "the best individual is never lost", "statement": "If elite_length >= 1 and truncation_length >= 1, then at every iteration an individual with the lowest cost evaluated so far is in the elite and is first in the (pre-noise) training data.", "quantifier": "every run, any number of iterations", "why_tests_cant": "Invariant over unbounded histories.", "anchors": ["EDAspy/optimization/eda.py:EDA._truncation"]}
{"id": "C13", "title": "minimize does not depend on earlier use of the optimiser", "statement": "For algorithms without an archive, calling minimize gives the same result, the same sequence of evaluated generations and the same random draws whatever the optimiser did before - including an earlier minimize that raised at any point.", "quantifier": "all pairs of prior object states (hence all earlier call histories and crash points)", "why_tests_cant": "Quantifies over all histories and crash points.", "anchors": ["EDAspy/optimization/eda.py:EDA.minimize", "EDAspy/optimization/custom/probabilistic_models:*.learn"]}
{"id": "C14", "title": "minimize of archive algorithms does not depend on earlier use", "statement": "For SPEDA and MultivariateKEDA, a second minimize gives the same result as on a fresh optimiser with the same random draws.", "quantifier": "all prior call histories", "why_tests_cant": "Quantifies over call histories; the archive survives between calls.", "anchors": ["EDAspy/optimization/multivariate/speda.py:SPEDA._update_archive", "EDAspy/optimization/multivariate/keda.py:MultivariateKEDA._update_archive"]}
{"id": "C15", "title": "parallel evaluation equals serial evaluation", "statement": "With parallelize=True the vector of costs is the one serial evaluation gives: same length, same order, same values, for every number of cores and every order in which workers finish.", "quantifier": "all populations, cost functions, core counts and worker schedules", "why_tests_cant": "Interleavings and core counts cannot be enumerated.", "anchors": ["EDAspy/optimization/utils.py:_parallel_apply_along_axis", "EDAspy/optimization/utils.py:unpacking_apply_along_axis", "EDAspy/optimization/eda.py:EDA._check_generation_parallel"]}
{"id": "C16", "title": "recorded costs are the returned costs", "statement": "The cost recorded for an individual is the number the cost function returned for it.", "quantifier": "all populations and all cost functions returning ints and/or floats", "why_tests_cant": "The buffer type is fixed by the first result of the generation, so the outcome depends on which individual comes first.", "anchors": ["EDAspy/optimization/eda.py:EDA._check_generation_no_parallel"]}
{"id": "C17", "title": "noise never reaches elite or reported solutions", "statement": "Every elite member, and result.best_ind when it is a solution, is unchanged by the white noise: it is a row that was passed to the cost function and carries the cost that was returned (where the cost function mixes types, a float may be cut to an integer as in C16). Where integer rows are joined with float rows the elite holds each integer as the nearest float, which is the same number up to 2^53.", "quantifier": "every run, every noise draw", "why_tests_cant": "Holds for all runs; aliasing between arrays.", "anchors": ["EDAspy/optimization/eda.py:EDA.minimize (line 188)", "EDAspy/optimization/eda.py:EDA._truncation"]}
{"id": "C18", "title": "noise can be added to the selected individuals", "statement": "If 0 <= alpha <= 1, w_noise > 0 and populations are float matrices, adding the noise never fails.", "quantifier": "all sizes of the initial data and all alpha, size_gen", "why_tests_cant": "Shape mismatch depends on the relation of three sizes; int(size_gen*alpha) is float arithmetic.", "anchors": ["EDAspy/optimization/eda.py:EDA.minimize (lines 181, 188)"]}
{"id": "C19", "title": "truncation and elite sizes stay inside the population", "statement": "For 0 <= alpha <= 1 and 0 <= size_gen < 2^53, 0 <= int(size_gen*alpha) <= size_gen, and the result is the floor of the real product up to one rounding.", "quantifier": "all binary64 alpha in [0,1] and all such size_gen", "why_tests_cant": "2^62 floats times 2^53 sizes.", "anchors": ["EDAspy/optimization/eda.py:EDA.__init__ (lines 42, 44)"]}
{"id": "C20", "title": "constructor validation", "statement": "An optimiser is constructed iff dead_iter <= max_iter and, when init_data is given, its number of columns equals n_variables; otherwise it raises AssertionError and no object exists.", "quantifier": "all constructor arguments with well-typed alpha and elite_factor", "why_tests_cant": "All parameter combinations.", "anchors": ["EDAspy/optimization/eda.py:EDA.__init__"]}
{"id": "C21", "title": "assigning pm or init is all-or-nothing", "statement": "Assigning to optimiser.pm or optimiser.init either succeeds with a model/initialiser of matching dimension, or raises and leaves the optimiser unchanged.", "quantifier": "all values assigned, all optimiser states", "why_tests_cant": "All sequences of assignments; the check comes after the store.", "anchors": ["EDAspy/optimization/eda.py:EDA.pm setter", "EDAspy/optimization/eda.py:EDA.init setter"]}
{"id": "C22", "title": "display options do not change the outcome", "statement": "The result and final optimiser state do not depend on disp or output_runtime, except that exported settings repeat disp; with both False nothing is printed.", "quantifier": "all runs, both options", "why_tests_cant": "Relational property of two executions.", "anchors": ["EDAspy/optimization/eda.py:EDA.minimize (lines 183, 211, 214)"]}
{"id": "C23", "title": "behaviour on NaN costs is deterministic", "statement": "If the first individual of a generation costs NaN, minimize raises IndexError; otherwise NaN costs are ignored by history and best_cost and are selected last.", "quantifier": "all positions of NaN in any generation", "why_tests_cant": "Depends on the position of the NaN in the population.", "anchors": ["EDAspy/optimization/eda.py:EDA.minimize (lines 172-174, 194-197)", "EDAspy/optimization/eda.py:EDA._truncation"]}
{"id": "C24", "title": "export_settings reports the constructor arguments", "statement": "For the stock algorithms export_settings() returns the size_gen, max_iter, dead_iter, n_variables, alpha, elite_factor, disp and parallelize the user passed.", "quantifier": "all algorithms and all accepted arguments", "why_tests_cant": "All argument values and algorithms.", "anchors": ["EDAspy/optimization/eda.py:EDA.export_settings", "EDAspy/optimization/univariate/pbil.py:PBIL.__init__"]}
{"id": "C25", "title": "read_settings inverts export_settings", "statement": "For an EDACustom e, read_settings(e.export_settings()) builds an optimiser with the same configuration.", "quantifier": "all constructible EDACustom", "why_tests_cant": "Round trip over all configurations.", "anchors": ["EDAspy/optimization/custom/eda_custom.py:read_settings", "EDAspy/optimization/custom/eda_custom.py:EDACustom.export_settings"]}
{"id": "C26", "title": "every pm/init pair accepted by EDACustom can be run", "statement": "For every pm and init identifier EDACustom accepts, minimize with a total cost function does not raise.", "quantifier": "all identifier pairs and sizes", "why_tests_cant": "The failure depends on numpy dtypes flowing through generations.", "anchors": ["EDAspy/optimization/custom/eda_custom.py:EDACustom.__init__", "EDAspy/optimization/eda.py:EDA.minimize (line 188)"]}
{"id": "C27", "title": "UniBin probabilities stay within the bounds", "statement": "After UniBin.learn on any non-empty dataset, every probability p that is not NaN satisfies lower_bound <= p <= upper_bound; for 0/1 data it is the column frequency clamped to the bounds. Learning from an empty dataset raises ZeroDivisionError.", "quantifier": "all datasets and all bounds lower < upper (IEEE binary64)", "why_tests_cant": "All datasets and bounds.", "anchors": ["EDAspy/optimization/custom/probabilistic_models/univariate_binary.py:UniBin.learn"]}
{"id": "C28", "title": "UMDAd only ever proposes binary vectors", "statement": "Every solution UMDAd evaluates, and best_ind, is a vector of n_variables zeros and ones.", "quantifier": "all runs started without init_data (or with binary init_data) and a vector of length n_variables", "why_tests_cant": "Invariant over whole runs and random streams.", "anchors": ["EDAspy/optimization/univariate/umda_binary.py:UMDAd", "EDAspy/optimization/custom/probabilistic_models/univariate_binary.py:UniBin.sample"]}
{"id": "C29", "title": "UMDAd never freezes a variable", "statement": "If 0 < lower_bound and upper_bound < 1, after every learn both values of every variable can still be sampled: a draw below lower_bound gives 1 and a draw at or above upper_bound gives 0.", "quantifier": "all datasets", "why_tests_cant": "All datasets and draws.", "anchors": ["EDAspy/optimization/custom/probabilistic_models/univariate_binary.py:UniBin.sample"]}
{"id": "C30", "title": "UniCategorical learns exact frequencies", "statement": "After learn on a non-empty dataset the table of each variable has exactly the values occurring in its column, each once, with probability count/rows; they sum to 1.", "quantifier": "all datasets of categorical values", "why_tests_cant": "All datasets.", "anchors": ["EDAspy/optimization/custom/probabilistic_models/univariate_categorical.py:obtain_probabilities", "EDAspy/optimization/custom/probabilistic_models/univariate_categorical.py:UniCategorical.learn"]}
{"id": "C31", "title": "UMDAcat stays inside the declared categories", "statement": "Every solution UMDAcat evaluates has in position i one of possible_values[i] (no init_data).", "quantifier": "all runs", "why_tests_cant": "Invariant over whole runs.", "anchors": ["EDAspy/optimization/univariate/umda_categorical.py:UMDAcat", "EDAspy/optimization/custom/probabilistic_models/univariate_categorical.py:UniCategorical.sample"]}
{"id": "C32", "title": "an extinct category never returns", "statement": "In UMDAcat, a value absent from a variable's training data at some iteration is never sampled for that variable in the next generation.", "quantifier": "all runs and iterations", "why_tests_cant": "Quantifies over all later random draws.", "anchors": ["EDAspy/optimization/custom/probabilistic_models/univariate_categorical.py:UniCategorical.sample"]}
{"id": "C33", "title": "UniGauss standard deviations respect the lower bound", "statement": "After UniGauss.learn every standard deviation is >= lower_bound (unless NaN), for any dataset; in exact arithmetic the mean lies between the column's minimum and maximum, and the deviation equals the larger of the population standard deviation and the bound. Before learn, every sample of UniGauss and AdaptUniGauss is zero.", "quantifier": "all datasets and bounds", "why_tests_cant": "All datasets; IEEE comparison semantics.", "anchors": ["EDAspy/optimization/custom/probabilistic_models/univariate_gaussian.py:UniGauss.learn"]}
{"id": "C34", "title": "PBIL update rule", "statement": "AdaptUniGauss.learn sets each mean to (1-a)*m + a*(best1 + best2 - worst) where best1, best2, worst are the two cheapest and the most expensive selected individuals and m is - as documented - the previous mean.", "quantifier": "all datasets, all previous model states", "why_tests_cant": "All model states; documented recurrence uses the previous mean, the code the dataset mean.", "anchors": ["EDAspy/optimization/custom/probabilistic_models/adaptive_univariate_gaussian.py:AdaptUniGauss.learn", "EDAspy/optimization/univariate/pbil.py:PBIL"]}
{"id": "C35", "title": "MultiGauss covariance is symmetric and clamped", "statement": "After MultiGauss.learn the covariance matrix is symmetric, every off-diagonal entry lies between lower_bound and upper_bound, and the means are the column means.", "quantifier": "all datasets with at least two rows and two columns, bounds lower <= upper", "why_tests_cant": "All datasets.", "anchors": ["EDAspy/optimization/custom/probabilistic_models/multivariate_gaussian.py:MultiGauss.learn"]}
{"id": "C36", "title": "EMNA keeps every variance above lower_factor", "statement": "lower_factor is a lower bound on the spread of every variable in the learned EMNA model, and the learned covariance matrix is positive semidefinite.", "quantifier": "all datasets", "why_tests_cant": "All datasets; the diagonal is overwritten after clamping.", "anchors": ["EDAspy/optimization/custom/probabilistic_models/multivariate_gaussian.py:MultiGauss.learn", "EDAspy/optimization/multivariate/emna.py:EMNA.__init__"]}
{"id": "C37", "title": "learning forgets the previous model", "statement": "For every univariate, multivariate-Gaussian and network model, the model after a successful learn(dataset) depends only on the dataset and the constructor arguments.", "quantifier": "all pairs of prior model states", "why_tests_cant": "All prior histories of the model.", "anchors": ["EDAspy/optimization/custom/probabilistic_models/*.py:learn"]}
{"id": "C38", "title": "GBN means are the network's means", "statement": "get_mu returns, for each variable, the expectation defined by the linear-Gaussian network; get_mu(vars) returns them in the order asked.", "quantifier": "all linear-Gaussian networks and any topological order", "why_tests_cant": "All graphs and coefficients.", "anchors": ["EDAspy/optimization/custom/probabilistic_models/gaussian_bayesian_network.py:GBN.get_mu"]}
{"id": "C39", "title": "GBN covariances are the network's covariances", "statement": "get_sigma returns the covariance matrix defined by the linear-Gaussian network.", "quantifier": "all linear-Gaussian networks and any topological order", "why_tests_cant": "Only networks with correlated parents of a common child differ.", "anchors": ["EDAspy/optimization/custom/probabilistic_models/gaussian_bayesian_network.py:GBN.get_sigma"]}
{"id": "C40", "title": "GBN covariance matrices are always symmetric", "statement": "The symmetry assertion in get_sigma never fires and the selected sub-matrix is symmetric.", "quantifier": "all networks", "why_tests_cant": "All graphs and coefficients.", "anchors": ["EDAspy/optimization/custom/probabilistic_models/gaussian_bayesian_network.py:GBN.get_sigma"]}
{"id": "C41", "title": "GBN inference solves the normal equations", "statement": "When the evidence covariance is invertible, the posterior mean and covariance returned by inference are the Gaussian conditional ones: the regression residual is uncorrelated with the evidence, and evidence equal to its mean leaves the mean unchanged.", "quantifier": "all networks and all evidence sets with invertible covariance", "why_tests_cant": "All matrices.", "anchors": ["EDAspy/optimization/custom/probabilistic_models/gaussian_bayesian_network.py:GBN.inference"]}
{"id": "C42", "title": "sampling with evidence fixes the evidence", "statement": "Every row sampled from a GBN with evidences holds the given value in each evidence variable, and columns follow the order of variables.", "quantifier": "all evidences, sizes and draws", "why_tests_cant": "All draws.", "anchors": ["EDAspy/optimization/custom/probabilistic_models/gaussian_bayesian_network.py:GBN._sample_evidence"]}
{"id": "C43", "title": "sampling with evidence labels the free variables correctly", "statement": "In rows sampled from a GBN with evidences, the column of each free variable holds the values drawn for that variable.", "quantifier": "all hash orders of sets of variable names", "why_tests_cant": "Set iteration order depends on the per-process hash seed.", "anchors": ["EDAspy/optimization/custom/probabilistic_models/gaussian_bayesian_network.py:GBN._sample_evidence", "EDAspy/optimization/custom/probabilistic_models/gaussian_bayesian_network.py:GBN.inference"]}
{"id": "C44", "title": "white and black lists reach the structure learner", "statement": "For GBN, SPBN and KDEBN, if the structure learner honours its lists, the learned arcs contain every white-listed arc and no black-listed one.", "quantifier": "all lists (None, empty, non-empty) and datasets", "why_tests_cant": "All list combinations.", "anchors": ["EDAspy/optimization/custom/probabilistic_models/gaussian_bayesian_network.py:GBN.learn", "EDAspy/optimization/custom/probabilistic_models/semiparametric_bayesian_network.py:SPBN.learn", "EDAspy/optimization/custom/probabilistic_models/kde_bayesian_network.py:KDEBN.learn"]}
{"id": "C45", "title": "the archive holds the last l elites", "statement": "After k iterations of SPEDA or MultivariateKEDA on a fresh optimiser the model is learned from exactly the concatenation of the last min(k, l) elites, at most l*int(size_gen*alpha) rows.", "quantifier": "all l >= 1, all runs, also those that raise; init_data, if given, of floats and with at least int(size_gen*alpha) rows; all samplers that return size_gen rows of floats", "why_tests_cant": "Invariant over unbounded runs; negative-slice corner cases.", "anchors": ["EDAspy/optimization/multivariate/speda.py:SPEDA._update_archive", "EDAspy/optimization/multivariate/keda.py:MultivariateKEDA._update_archive"]}
{"id": "C46", "title": "the archive is bounded for every accepted l", "statement": "The archive never holds more than l*int(size_gen*alpha) rows, for every l the constructor accepts (l is documented as a float).", "quantifier": "all l, all runs", "why_tests_cant": "Slice semantics at 0 and at non-integers.", "anchors": ["EDAspy/optimization/multivariate/speda.py:SPEDA._update_archive"]}
{"id": "C47", "title": "w_noise has an effect in archive algorithms", "statement": "In SPEDA and MultivariateKEDA the white noise of intensity w_noise is added to the data the model is learned from.", "quantifier": "all runs and noise draws", "why_tests_cant": "Relational: two runs with different noise.", "anchors": ["EDAspy/optimization/multivariate/speda.py:SPEDA._update_pm", "EDAspy/optimization/eda.py:EDA.minimize (line 188)"]}
{"id": "C48", "title": "uniform initialisation respects the bounds", "statement": "Every value in column i of UniformGenInit.sample(size) lies in the closed interval [lower_i, upper_i] (rounding can reach the upper end), and the array has size rows and n_variables columns.", "quantifier": "all finite bounds lower_i <= upper_i with a finite difference (scalar or per-variable) and all draws, IEEE binary64", "why_tests_cant": "All draws and bounds.", "anchors": ["EDAspy/optimization/custom/initialization_models/uniform_geninit.py:UniformGenInit.sample"]}
{"id": "C49", "title": "solutions respect lower_bound and upper_bound", "statement": "Every solution evaluated by a continuous algorithm lies within the lower_bound and upper_bound given to the constructor.", "quantifier": "all runs", "why_tests_cant": "Needs a claim about every sampled generation.", "anchors": ["EDAspy/optimization/univariate/umda_continuous.py:UMDAc", "EDAspy/optimization/custom/probabilistic_models/univariate_gaussian.py:UniGauss.sample"]}
{"id": "C50", "title": "accepted category frequencies can be sampled", "statement": "If CategoricalSampling is constructed without error then sample(size) succeeds and yields only declared values.", "quantifier": "all possible_values and frequency tables", "why_tests_cant": "The constructor tolerates 0.1, the sampler 1.5e-8.", "anchors": ["EDAspy/optimization/custom/initialization_models/categorical_geninit.py:CategoricalSampling"]}
{"id": "C51", "title": "zero-frequency categories are never sampled", "statement": "When sampling a categorical distribution a value of probability zero is never produced, and every sampled value is a declared one.", "quantifier": "all tables accepted by the sampler, all draws", "why_tests_cant": "All draws.", "anchors": ["EDAspy/optimization/custom/initialization_models/categorical_geninit.py:CategoricalSampling.sample", "EDAspy/optimization/custom/probabilistic_models/univariate_categorical.py:UniCategorical.sample"]}
{"id": "C52", "title": "initial generation has the right width", "statement": "If an initialiser is accepted by an optimiser (its n_variables matches), every initial generation it produces has n_variables columns.", "quantifier": "all mean/standard-deviation vectors", "why_tests_cant": "Broadcasting corner cases.", "anchors": ["EDAspy/optimization/custom/initialization_models/uni_bin_geninit.py:UniBinGenInit", "EDAspy/optimization/custom/initialization_models/uni_gauss_geninit.py:UniGaussGenInit"]}
{"id": "C53", "title": "Latin hypercube post-processing flag", "statement": "LatinHypercubeSampling.sample applies Lloyd post-processing exactly when post_process=True.", "quantifier": "both flag values, all sizes", "why_tests_cant": "Relational claim about which external sampler is built.", "anchors": ["EDAspy/optimization/custom/initialization_models/latin_hypercube_sampling_geninit.py:LatinHypercubeSampling.sample"]}
{"id": "C54", "title": "random Gaussian initialisation always possible", "statement": "UniGaussGenInit built from bounds alone (as EDACustom does) never raises and yields standard deviations that can be sampled.", "quantifier": "all integer bounds lower <= higher", "why_tests_cant": "All bounds.", "anchors": ["EDAspy/optimization/custom/initialization_models/uni_gauss_geninit.py:UniGaussGenInit.__init__"]}
{"id": "C55", "title": "adjacency matrix of arcs", "statement": "arcs2adj_mat(arcs, n)[i][j] is 1 iff (i, j) is in arcs and 0 otherwise, for arcs over 0..n-1; an index outside raises IndexError.", "quantifier": "all n and arc lists", "why_tests_cant": "All graphs.", "anchors": ["EDAspy/optimization/tools.py:arcs2adj_mat"]}
{"id": "C56", "title": "default plot positions are total and distinct", "statement": "For a non-empty list of distinct variables the default layout gives every variable a position and no two variables the same position.", "quantifier": "all numbers of variables", "why_tests_cant": "All sizes.", "anchors": ["EDAspy/optimization/tools.py:_set_positions"]}
{"id": "C57", "title": "model identifiers identify models", "statement": "Two different probabilistic model classes have different ids, and two different initialiser classes have different ids.", "quantifier": "all pairs of classes", "why_tests_cant": "Finite, but the claim is about all pairs across files.", "anchors": ["EDAspy/optimization/custom/probabilistic_models/*.py:id", "EDAspy/optimization/custom/initialization_models/*.py:id"]}
{"id": "C58", "title": "one_max counts ones", "statement": "For a 0/1 vector of length n, one_max is the number of ones, at most n, and equals n only for the all-ones vector.", "quantifier": "all binary vectors", "why_tests_cant": "2^n vectors for every n.", "anchors": ["EDAspy/benchmarks/binary.py:one_max"]}
{"id": "C59", "title": "Rosenbrock, discus, elliptic, Rastrigin, Ackley, HappyCat, HGBat, Katsuura, Schaffer F6 have minimum zero at the textbook point", "statement": "Each of these functions is >= 0 everywhere and 0 at its textbook optimum (0, 1 or -1 vector).", "quantifier": "all real vectors of every dimension", "why_tests_cant": "All real inputs.", "anchors": ["EDAspy/benchmarks/continuous.py:ContinuousBenchmarkingCEC14"]}
{"id": "C60", "title": "bent cigar follows its definition", "statement": "bent_cigar_function(x) = x_0^2 + 10^6 * sum_{i>=1} x_i^2.", "quantifier": "all real vectors", "why_tests_cant": "All real inputs.", "anchors": ["EDAspy/benchmarks/continuous.py:ContinuousBenchmarkingCEC14.bent_cigar_function"]}
{"id": "C61", "title": "Griewank follows its definition", "statement": "griewank_function(x) = sum x_i^2/4000 - prod cos(x_i/sqrt(i)) + 1.", "quantifier": "all real vectors", "why_tests_cant": "All real inputs.", "anchors": ["EDAspy/benchmarks/continuous.py:ContinuousBenchmarkingCEC14.griewank_function"]}
{"id": "C62", "title": "Weierstrass follows its definition", "statement": "weierstrass_function(0) = 0 in every dimension.", "quantifier": "all dimensions", "why_tests_cant": "Only dimension > 1 differs.", "anchors": ["EDAspy/benchmarks/continuous.py:ContinuousBenchmarkingCEC14.weierstrass_function"]}
{"id": "C63", "title": "shifted and rotated benchmarks reach their bias at the shift", "statement": "For every rotation matrix and shift vector, cec14_k(shift) is the CEC'14 bias 100*k and cec14_k(x) is never below it.", "quantifier": "all k, all shifts, matrices and x", "why_tests_cant": "All real inputs and matrices.", "anchors": ["EDAspy/benchmarks/continuous.py:ContinuousBenchmarkingCEC14.cec14_*"]}
{"id": "C64", "title": "every accepted dimension can be evaluated", "statement": "If ContinuousBenchmarkingCEC14(dim) is accepted then every cec14_k can be evaluated on vectors of that dimension.", "quantifier": "all accepted dimensions and all k", "why_tests_cant": "Depends on the data files shipped.", "anchors": ["EDAspy/benchmarks/continuous.py:ContinuousBenchmarkingCEC14.__init__", "EDAspy/benchmarks/continuous.py:ContinuousBenchmarkingCEC14._load_rot"]}
{"id": "C65", "title": "UMDAc runs to completion", "statement": "UMDAc with 1 <= n_variables, 0 < int(size_gen*alpha) <= size_gen, lower_factor >= 0, w_noise >= 0 and finite bounds (or a valid mean/deviation vector, or float init_data of at least int(size_gen*alpha) rows) returns a result for every cost function that returns a number for every float vector of length n_variables; with parallelize=True, provided size_gen and the number of rows of init_data, if any, are at least cpu_count().", "quantifier": "all such configurations, random streams and cost functions", "why_tests_cant": "Absence of any exception over all runs.", "anchors": ["EDAspy/optimization/univariate/umda_continuous.py:UMDAc", "EDAspy/optimization/eda.py:EDA.minimize"]}
{"id": "C66", "title": "UMDAd runs to completion", "statement": "UMDAd with 1 <= int(size_gen*alpha), a vector of length n_variables if one is given and non-empty binary init_data if any, returns a result for every cost function that returns a number for every binary vector of length n_variables; with parallelize=True, provided size_gen and the number of rows of init_data, if any, are at least cpu_count().", "quantifier": "all such configurations, random streams and cost functions", "why_tests_cant": "Absence of any exception over all runs.", "anchors": ["EDAspy/optimization/univariate/umda_binary.py:UMDAd", "EDAspy/optimization/eda.py:EDA.minimize"]}
{"id": "C67", "title": "progress output is truthful", "statement": "With output_runtime=True the lines are numbered 0, 1, 2, ... without gaps; line k shows the best cost kept after the first k+1 generations; only an iteration that stops the run early has no line; with disp=True the last thing printed repeats n_fev, best_cost and best_ind of the result.", "quantifier": "every run that returns", "why_tests_cant": "Needs the relation between stdout and the result over arbitrary runs.", "anchors": ["EDAspy/optimization/eda.py:EDA.minimize"]}
{"id": "C68", "title": "one noise matrix per run", "statement": "The white noise is drawn once per minimize: every iteration adds the same matrix, so two iterations that select the same individuals train the model on the same data.", "quantifier": "every run, every noise draw", "why_tests_cant": "Randomised; a test cannot tell reuse from coincidence in general.", "anchors": ["EDAspy/optimization/eda.py:EDA.minimize"]}
{"id": "C69", "title": "categories that are not strings cannot be optimised", "statement": "UMDAcat and EBNA, given a variable none of whose possible values is a string, never return from minimize when max_iter >= 2 and init_data is absent.", "quantifier": "all such category tables, configurations, cost functions, random streams", "why_tests_cant": "A universally quantified failure; a test shows it for one table.", "anchors": ["EDAspy/optimization/custom/probabilistic_models/discrete_bayesian_network.py:BN.learn", "EDAspy/optimization/eda.py:EDA._truncation"]}
{"id": "C70", "title": "bounds that were left out are reported as TypeError by minimize, not by the constructor", "statement": "A continuous algorithm constructed without lower_bound, upper_bound and init_data is accepted, and every call of minimize raises TypeError.", "quantifier": "all algorithms with uniform initialisation, all configurations and cost functions", "why_tests_cant": "Quantifies over algorithms, arguments and earlier use.", "anchors": ["EDAspy/optimization/custom/initialization_models/uniform_geninit.py:UniformGenInit.sample"]}
{"id": "C71", "title": "UMDAcat runs to completion", "statement": "UMDAcat with string categories whose frequencies sum to 1 within the sampler tolerance and 1 <= int(size_gen*alpha) <= 2^22 returns a result for every total cost function.", "quantifier": "all such configurations, random streams and cost functions", "why_tests_cant": "Rounding errors of learned frequencies must be shown to stay within the sampler tolerance for every data set.", "anchors": ["EDAspy/optimization/univariate/umda_categorical.py:UMDAcat", "EDAspy/optimization/custom/probabilistic_models/univariate_categorical.py:UniCategorical.sample"]}
{"id": "C72", "title": "PBIL runs to completion", "statement": "PBIL with size_gen >= 2, 1 <= n_variables, w_noise >= 0 and finite bounds (or a valid vector, or float init_data of at least size_gen rows) returns a result for every total cost function; with parallelize=True, provided size_gen >= cpu_count().", "quantifier": "all such configurations, random streams and cost functions", "why_tests_cant": "All runs and cost functions.", "anchors": ["EDAspy/optimization/univariate/pbil.py:PBIL"]}
{"id": "C73", "title": "solutions of UMDAc and PBIL are float vectors of n_variables", "statement": "With init_data absent or a float array of n_variables columns, every generation of UMDAc and PBIL is a float array with n_variables columns, and every solution evaluated and the best individual reported are float vectors of length n_variables.", "quantifier": "all runs, also those that raise, after any earlier use", "why_tests_cant": "All runs and random streams.", "anchors": ["EDAspy/optimization/univariate/umda_continuous.py:UMDAc", "EDAspy/optimization/univariate/pbil.py:PBIL"]}
{"id": "C74", "title": "EMNA needs two variables", "statement": "EMNA with n_variables = 1 never returns from minimize when max_iter >= 2 (its covariance matrix is a scalar).", "quantifier": "all runs, all other arguments, all cost functions", "why_tests_cant": "A universally quantified failure.", "anchors": ["EDAspy/optimization/multivariate/emna.py:EMNA", "EDAspy/optimization/custom/probabilistic_models/multivariate_gaussian.py:MultiGauss.learn"]}
{"id": "C75", "title": "default plot draws every variable and every arc once", "statement": "plot_bn(arcs, var_names) without positions draws every listed variable exactly once, each at its own place, and every arc exactly once; it raises an exception exactly when some arc joins a name that is not listed. With positions it draws every listed variable and every end of an arc once, at the position given, and raises exactly when one has none.", "quantifier": "all arc lists; without positions all non-empty lists of distinct names, with positions all lists of names and all non-empty dictionaries of positions", "why_tests_cant": "Tests plot a handful of networks and look at no coordinates.", "anchors": ["EDAspy/optimization/tools.py"]}
{"id": "C76", "title": "minimize never modifies arrays it shares with its caller", "statement": "As long as the cost function does not write into the vector it is given, minimize changes neither init_data nor any array that existed before the call, no generation that the cost function or the model has been handed changes afterwards, and the best_ind of an earlier result keeps its value through later calls of minimize.", "quantifier": "all runs, also those that raise; any sequence of two calls, also on different problems sharing memory", "why_tests_cant": "Aliasing is invisible unless a test keeps copies of every array and compares them after every later step.", "anchors": ["EDAspy/optimization/eda.py:EDA.minimize", "EDAspy/optimization/eda.py:EDA._truncation", "EDAspy/optimization/eda.py:EDA._initialize_generation_with_data"]}
{"id": "C77", "title": "the cost function works on its own copy", "statement": "Whatever the cost function writes into the vector it is given, init_data is unchanged and best_ind is a vector on which the cost function was called.", "quantifier": "all cost functions, also those that write into their argument; serial and parallel evaluation", "why_tests_cant": "Tests use cost functions that do not write.", "anchors": ["EDAspy/optimization/eda.py:EDA._check_generation_no_parallel", "EDAspy/optimization/utils.py:_parallel_apply_along_axis"]}
{"id": "C78", "title": "categories are sampled as often as they were learned", "statement": "After UniCategorical.learn, every category of every variable owns one interval of uniform draws in [0, 1): a sampled cell is that category exactly when the draw for its row and variable falls in the interval, and the length of the interval differs from the category's share of the training rows by at most 2^-26. For CategoricalSampling the same holds with the declared frequency, up to twice the amount by which the frequencies miss the sum one.", "quantifier": "all data sets of strings or integers with up to 2^22 rows, all declared distributions with up to 2^22 categories, all random streams, all sample sizes", "why_tests_cant": "A statistical test samples one distribution and tolerates deviations of many percent.", "anchors": ["EDAspy/optimization/custom/probabilistic_models/univariate_categorical.py:UniCategorical.sample", "EDAspy/optimization/custom/initialization_models/categorical_geninit.py:CategoricalSampling.sample"]}
{"id": "C79", "title": "bits are sampled as often as they were learned", "statement": "After UniBin.learn on rows of bits, there is one number per variable, within 2^-53 of the share of ones brought into [lower_bound, upper_bound], such that a sampled bit is 1 exactly when the uniform draw for its row and variable is below that number.", "quantifier": "all bit data sets with up to 2^53 rows, all finite bounds accepted by the constructor, all random streams", "why_tests_cant": "A statistical test samples one distribution and tolerates deviations of many percent.", "anchors": ["EDAspy/optimization/custom/probabilistic_models/univariate_binary.py:UniBin.sample", "EDAspy/optimization/custom/probabilistic_models/univariate_binary.py:UniBin.learn"]}
{"id": "C80", "title": "sampled columns belong to the variables", "statement": "A sample of a Gaussian, semiparametric, kernel or discrete Bayesian network has one column per variable in the order the variables were given, whatever order the library returns them in; cell (i, j) is the value the library drew for variable j in row i. A KeyError names a variable the library left out, and is raised in no other case.", "quantifier": "all libraries, all column orders, all sample sizes; distinct column names", "why_tests_cant": "Tests use one library version whose column order is fixed by its topological sort.", "anchors": ["EDAspy/optimization/custom/probabilistic_models/gaussian_bayesian_network.py:GBN._sample_normal", "EDAspy/optimization/custom/probabilistic_models/semiparametric_bayesian_network.py:SPBN.sample", "EDAspy/optimization/custom/probabilistic_models/kde_bayesian_network.py:KDEBN.sample", "EDAspy/optimization/custom/probabilistic_models/discrete_bayesian_network.py:BN.sample"]}
{"id": "C81", "title": "learning hands every column over under its own name", "statement": "Every table that learn of a network model gives to the library contains the data set row by row, each column under the name of its variable and under no other; a data set of the wrong width is refused with ValueError before the library is called and leaves the model as it was. A library that samples what it was given reproduces the data set.", "quantifier": "all libraries, data sets and variable names that are distinct", "why_tests_cant": "A mislabelled column only shows as a worse network.", "anchors": ["EDAspy/optimization/custom/probabilistic_models/gaussian_bayesian_network.py:GBN.learn", "EDAspy/optimization/custom/probabilistic_models/semiparametric_bayesian_network.py:SPBN.learn", "EDAspy/optimization/custom/probabilistic_models/kde_bayesian_network.py:KDEBN.learn", "EDAspy/optimization/custom/probabilistic_models/discrete_bayesian_network.py:BN.learn"]}
{"id": "C82", "title": "a failed learn leaves the model as it was", "statement": "When learn of a probabilistic model raises an exception, the model is unchanged, so that it can still be sampled as before.", "quantifier": "all probabilistic models, data sets and previous states", "why_tests_cant": "Tests of exceptions do not look at the model afterwards.", "anchors": ["EDAspy/optimization/custom/probabilistic_models/univariate_gaussian.py:UniGauss.learn", "EDAspy/optimization/custom/probabilistic_models/univariate_categorical.py:UniCategorical.learn", "EDAspy/optimization/custom/probabilistic_models/univariate_binary.py:UniBin.learn", "EDAspy/optimization/custom/probabilistic_models/univariate_kde.py:UniKDE.learn", "EDAspy/optimization/custom/probabilistic_models/semiparametric_bayesian_network.py:SPBN.learn"]}
{"id": "C83", "title": "UniKDE estimates every variable on its own", "statement": "UniKDE.learn succeeds on every data set in which every variable takes two different values, as univariate kernel density estimates require no more.", "quantifier": "all data sets, exact arithmetic, a library that estimates whenever the covariance matrix is positive definite", "why_tests_cant": "Random test data have more rows than variables and no linear relation.", "anchors": ["EDAspy/optimization/custom/probabilistic_models/univariate_kde.py:UniKDE.learn"]}
{"id": "C84", "title": "UnivariateKEDA cannot train on fewer rows than variables", "statement": "With a kernel density estimator that refuses data sets with no more rows than columns (as scipy's does, by C83), UnivariateKEDA whose selection int(size_gen * alpha) has at most n_variables rows never gets past its first generation: a run with max_iter of two or more raises an exception.", "quantifier": "all sizes, bounds, costs, random streams and previous uses", "why_tests_cant": "Tests use populations much larger than the number of variables.", "anchors": ["EDAspy/optimization/univariate/keda.py:UnivariateKEDA", "EDAspy/optimization/custom/probabilistic_models/univariate_kde.py:UniKDE.learn"]}
{"id": "C85", "title": "only the order of costs matters", "statement": "With ftol = 0, two cost functions that order every pair of solutions alike (and return NaN for the same solutions) lead minimize to the same search: the same calls, evaluated generations, training data, model, random state, best_ind, n_fev and history length, or the same exception; best_cost and history are values of the same solutions. The same holds when a stateful, random or raising cost is followed by an order-preserving transformation, which then maps one history to the other. With the default tolerance this is false.", "quantifier": "all configurations, cost functions, transformations, models, initialisers, parallel or not; sorting by comparisons", "why_tests_cant": "Invariance relates two runs over all cost functions; tests compare a few.", "anchors": ["EDAspy/optimization/eda.py:EDA.minimize", "EDAspy/optimization/eda.py:EDA._truncation"]}
{"id": "C86", "title": "exceptions of called code reach the caller", "statement": "Without parallel evaluation, an exception raised by the cost function, the initialiser, learn or sample ends minimize at once: minimize raises that very exception and calls nothing else afterwards. No such exception is swallowed or replaced.", "quantifier": "all configurations, cost functions, models and initialisers that may raise at any call, all states", "why_tests_cant": "Tests raise at one chosen call.", "anchors": ["EDAspy/optimization/eda.py:EDA.minimize", "EDAspy/optimization/eda.py:EDA._check_generation_no_parallel", "EDAspy/optimization/eda.py:EDA._new_generation"]}
{"id": "C87", "title": "algorithms with library models fail only when the library does", "statement": "For EGNA, UnivariateKEDA, MultivariateKEDA and SPEDA (l a positive int) with valid arguments, a cost function that returns numbers, and a library that samples float matrices of the size asked for: every call of minimize, whatever calls preceded it, either returns a vector of n_variables floats or raises an exception the library raised while learning from (or sampling a model learned from) a float matrix with n_variables columns and between t = int(size_gen * alpha) and t (for the archive algorithms l * t) rows. With a library that never raises on such data, minimize returns. The same holds for EBNA and BOA with string categories and a library that samples each variable among the values of its training data; there a value absent from the training data is absent from the next generation.", "quantifier": "all arguments, costs, random streams, histories of calls and libraries", "why_tests_cant": "Tests cannot vary the library, and cannot show that no other failure exists.", "anchors": ["EDAspy/optimization/multivariate/egna.py:EGNA", "EDAspy/optimization/univariate/keda.py:UnivariateKEDA", "EDAspy/optimization/multivariate/keda.py:MultivariateKEDA", "EDAspy/optimization/multivariate/speda.py:SPEDA", "EDAspy/optimization/multivariate/ebna.py:EBNA", "EDAspy/optimization/multivariate/boa.py:BOA"]}
{"id": "C88", "title": "EMNA with two or more variables fails only in multivariate_normal", "statement": "EMNA with at least two variables, valid arguments and a cost function that returns numbers either returns a vector of n_variables floats or raises what numpy.random.multivariate_normal raised on the mean vector and matrix learned from a selection of int(size_gen * alpha) rows; the vector and the matrix always have the shapes that function requires.", "quantifier": "all arguments, costs, random streams and histories of calls", "why_tests_cant": "Tests of a few runs cannot show that no other failure exists.", "anchors": ["EDAspy/optimization/multivariate/emna.py:EMNA", "EDAspy/optimization/custom/probabilistic_models/multivariate_gaussian.py:MultiGauss"]}
{"id": "C89", "title": "the plain Latin hypercube puts one sample in each slot", "statement": "LatinHypercubeSampling with lower < upper for every variable, called with post_process=True (the setting that returns scipy's plain hypercube, see C53), returns a size by n_variables float matrix in which, for every variable, each of the size equal slots of its range holds exactly one sample (slot edges computed in double arithmetic); all values are at least the lower bound, and all but those of the topmost slot are at most the upper bound.", "quantifier": "all numbers of variables, bounds (scalars, lists, arrays) of magnitude up to 2^1000, sizes up to 2^53, uniform draws and shuffles", "why_tests_cant": "The stratification is a statement about all draws and all shuffles; tests look at one sample's shape.", "anchors": ["EDAspy/optimization/custom/initialization_models/latin_hypercube_sampling_geninit.py:LatinHypercubeSampling.sample"]}
{"id": "C90", "title": "Latin hypercube samples stay within the bounds", "statement": "Every value LatinHypercubeSampling returns lies between the lower and the upper bound of its variable, with and without post-processing; when lower < upper fails for some variable, sampling raises.", "quantifier": "all bounds, sizes, draws, shuffles and results of Lloyd's algorithm", "why_tests_cant": "The violation needs a draw at the end of the range and bounds whose difference is rounded up.", "anchors": ["EDAspy/optimization/custom/initialization_models/latin_hypercube_sampling_geninit.py:LatinHypercubeSampling.sample"]}
{"id": "C91", "title": "the default Latin hypercube call samples any number of variables", "statement": "sample(size) with the default flag returns a size by n_variables float matrix for every positive size and number of variables, when scipy's Lloyd algorithm returns points of the unit cube.", "quantifier": "all numbers of variables, bounds, sizes, draws and results of Lloyd's algorithm", "why_tests_cant": "The test suite samples several variables only.", "anchors": ["EDAspy/optimization/custom/initialization_models/latin_hypercube_sampling_geninit.py:LatinHypercubeSampling.sample"]}
{"id": "C92", "title": "initialiser constructors report arguments of the wrong length", "statement": "Constructing an initialiser with bounds, means, deviations, covariance rows, values or frequencies whose number does not fit (n_variables, or each other) raises at once, and fitting arguments are accepted.", "quantifier": "all argument lists, arrays and numbers of variables", "why_tests_cant": "The tests construct initialisers with fitting arguments.", "anchors": ["EDAspy/optimization/custom/initialization_models/uniform_geninit.py:UniformGenInit", "EDAspy/optimization/custom/initialization_models/latin_hypercube_sampling_geninit.py:LatinHypercubeSampling", "EDAspy/optimization/custom/initialization_models/uni_gauss_geninit.py:UniGaussGenInit", "EDAspy/optimization/custom/initialization_models/multi_gauss_geninit.py:MultiGaussGenInit", "EDAspy/optimization/custom/initialization_models/categorical_geninit.py:CategoricalSampling"]}
{"id": "C93", "title": "every generation is drawn from the model trained so far", "statement": "In a call of minimize the first evaluated generation is init_data or the initialiser's sample; generation k is exactly what the model returned from sample() after learn() had been called on the first k recorded training sets, in order and on nothing else, starting from the model's state when minimize was called; each training precedes the evaluation it produces.", "quantifier": "all configurations, cost functions, models, initialisers and random streams; every run, also one that raises, up to where it stops", "why_tests_cant": "A test sees the final result; a generation evaluated twice, a training skipped or a sample taken before training would leave it plausible.", "anchors": ["EDAspy/optimization/eda.py:EDA.minimize", "EDAspy/optimization/eda.py:EDA._update_pm", "EDAspy/optimization/eda.py:EDA._new_generation"]}
{"id": "C94", "title": "what the generations of the algorithms without library models consist of", "statement": "Let d be the data set the model was trained on before a generation of size_gen vectors. UMDAc: value j of vector i is mean_j + sd_j * z_ij with the mean and the raised standard deviation of column j of d and z a matrix of standard normal draws. PBIL: the same with mean (1-alpha)*mean_j + alpha*(best + second - last). UMDAd: 1 exactly where a uniform draw is below the clamped frequency of ones of column j. EMNA: one multivariate_normal draw with the column means and the matrix of standard deviations (diagonal) and clamped covariances. UMDAcat: category x exactly where a uniform draw falls in an interval of width within 2^-26 of x's frequency in column j.", "quantifier": "all arguments, cost functions, random streams and histories of calls", "why_tests_cant": "Tests cannot compare a run with the distribution it is meant to follow without trusting the same random stream.", "anchors": ["EDAspy/optimization/univariate/umda_continuous.py:UMDAc", "EDAspy/optimization/univariate/pbil.py:PBIL", "EDAspy/optimization/univariate/umda_binary.py:UMDAd", "EDAspy/optimization/multivariate/emna.py:EMNA", "EDAspy/optimization/univariate/umda_categorical.py:UMDAcat", "EDAspy/optimization/eda.py:EDA.minimize"]}
{"id": "C95", "title": "the unit of the cost is irrelevant up to a power of two", "statement": "If every value of the cost function is multiplied by 2^e (|e| <= 100) and the costs are not finite, zero or between 2^-800 and 2^800 in magnitude, minimize makes the same calls, evaluates the same generations, trains on the same data and returns the same individual and number of evaluations (or raises the same exception) for every ftol between -1/2 and 10^6; best_cost and history are multiplied by 2^e. For other factors this can fail: tripling the costs can change the returned individual.", "quantifier": "all configurations, exponents in range, tolerances in range, cost functions (stateful, random or raising) with float costs in range, models, initialisers, random streams and comparison sorts", "why_tests_cant": "It compares two complete runs under all possible costs; the acceptance threshold multiplies and rounds, and whether that commutes with scaling is a fact about all doubles.", "anchors": ["EDAspy/optimization/eda.py:EDA.minimize"]}
{"id": "C96", "title": "the printed summary of a result shows its values", "statement": "str(result) determines the texts of the number of evaluations, the cost, the cpu time, the individual, the settings and the history, and every label in it is set apart from the value before it.", "quantifier": "all results and all ways of writing numbers without blanks, capital C and line breaks, individuals without tabs and settings on one line", "why_tests_cant": "A test compares one literal string; unambiguity quantifies over pairs of results.", "anchors": ["EDAspy/optimization/eda_result.py:EdaResult.__str__"]}
{"id": "C97", "title": "the modified Schwefel function follows its definition", "statement": "mod_schwefels_function(x) equals 418.9829 * D minus the sum of the CEC'14 terms g(z_i), z_i = x_i + 420.9687462275036, where |z| > 500 is folded back into the range and penalised by (|z|-500)^2 / (10000 D).", "quantifier": "all real vectors", "why_tests_cant": "Tests evaluate inside the search range; the wrong branches are outside [-500, 500] and need a comparison with the definition.", "anchors": ["EDAspy/benchmarks/continuous.py:_mod_sch_f", "EDAspy/benchmarks/continuous.py:ContinuousBenchmarkingCEC14.mod_schwefels_function"]}
{"id": "C98", "title": "in double arithmetic the benchmark functions are exactly zero at the minimum and never below zero", "statement": "For the dimensions the constructor accepts, bent cigar, discus, Rosenbrock, Ackley, Griewank, Rastrigin, elliptic, Katsuura, HappyCat, HGBat and expanded Schaffer return exactly 0.0 at their textbook minimum and never a value below 0.0 for any array of doubles, infinities and NaN included.", "quantifier": "all arrays of doubles, all accepted dimensions, all C libraries with non-negative squares and powers, |cos| <= 1 and exact values at 0 and 1", "why_tests_cant": "The error is one rounding; it shows only at particular doubles next to the minimum.", "anchors": ["EDAspy/benchmarks/continuous.py:ContinuousBenchmarkingCEC14"]}
{"id": "C99", "title": "print_structure shows the structure of the last learning", "statement": "For GBN, SPBN and KDEBN, print_structure returns no arc before the first learn; after a learn it returns exactly the arcs of the network the structure search found for that data set, whatever was learned before, and no arc when that search raised; a data set with the wrong number of columns raises ValueError and leaves it unchanged. For BN it returns exactly the arcs its search found, in that order.", "quantifier": "all data sets, lists, histories of learn calls and structure learners", "why_tests_cant": "Depends on what an external structure learner returns and on all earlier calls.", "anchors": ["EDAspy/optimization/custom/probabilistic_models/gaussian_bayesian_network.py:GBN.print_structure", "EDAspy/optimization/custom/probabilistic_models/semiparametric_bayesian_network.py:SPBN.learn", "EDAspy/optimization/custom/probabilistic_models/kde_bayesian_network.py:KDEBN.learn", "EDAspy/optimization/custom/probabilistic_models/discrete_bayesian_network.py:BN.learn"]}
{"id": "C100", "title": "queries about unknown variables are refused", "statement": "On a learned Gaussian Bayesian network get_mu(vars) and get_sigma(vars) return one entry per requested variable when all of them belong to the network and raise ValueError otherwise (in exact arithmetic for get_sigma); inference(evidence, var_names) raises ValueError when a measured variable does not belong to the network.", "quantifier": "all networks, all lists of requested variables, all evidence", "why_tests_cant": "Tests ask for variables that exist.", "anchors": ["EDAspy/optimization/custom/probabilistic_models/gaussian_bayesian_network.py"]}
{"id": "C101", "title": "inference needs one value per measured variable", "statement": "inference(evidence, var_names) is answered only when evidence has as many values as var_names has variables.", "quantifier": "all networks, all evidence lists, all lists of variables", "why_tests_cant": "Tests pass matching lists.", "anchors": ["EDAspy/optimization/custom/probabilistic_models/gaussian_bayesian_network.py"]}
{"id": "C102", "title": "maximum_a_posteriori needs a learned network", "statement": "maximum_a_posteriori raises AssertionError on a network that was never learned or whose last learning failed, and returns the posterior mean of inference otherwise.", "quantifier": "all sequences of successful and failing learn calls, all libraries", "why_tests_cant": "Tests never call it, and never make learn fail.", "anchors": ["EDAspy/optimization/custom/probabilistic_models/gaussian_bayesian_network.py"]}
{"id": "C103", "title": "learned Gaussian parameters are the exact ones up to rounding", "statement": "In binary64 arithmetic, whatever the order in which the selected rows are added: for up to 2^40 rows with finite values of magnitude at most B <= 2^400, the mean that UniGauss.learn stores differs from the exact mean of the column by at most 2nB/2^53 + 2^-1075 (so it leaves the range of the selected values by no more than that), and the deviation differs from the larger of the bound and the exact population deviation by at most (6n+7)B/2^53 + 2^-530; the same holds, with stated constants, for the shifted means of AdaptUniGauss.learn and for the means, diagonal and covariances of MultiGauss.learn. Nothing is NaN or infinite.", "quantifier": "all data sets, all summation orders, all bounds, all alpha in [0,1]", "why_tests_cant": "A bound on rounding errors for all inputs and all summation orders.", "anchors": ["EDAspy/optimization/custom/probabilistic_models/univariate_gaussian.py:UniGauss.learn", "EDAspy/optimization/custom/probabilistic_models/adaptive_univariate_gaussian.py:AdaptUniGauss.learn", "EDAspy/optimization/custom/probabilistic_models/multivariate_gaussian.py:MultiGauss.learn"]}
{"id": "C104", "title": "solutions of UMDAc and PBIL stay finite", "statement": "In binary64 arithmetic, if every value of the first generation is finite with magnitude at most B0, every normal draw has magnitude at most Z (Z >= 1), the deviation bound and the noise scale times Z are at most B0 (B0 >= 2^-500), and at least one and at most 2^40 individuals are selected, then generation k of UMDAc consists of finite values of magnitude at most B0(3(1+Z))^k as long as that is at most 2^400, and generation k of PBIL of finite values of magnitude at most B0(3(3+Z))^k likewise: no NaN or infinity reaches the cost function. Beyond that range solutions can be lost: a run whose first generation is finite can produce infinite or NaN individuals.", "quantifier": "all runs, also those that raise, all cost functions, all draws within the bound, all summation orders, all settings with a non-negative number of elites and, for PBIL, alpha between 0 and 1", "why_tests_cant": "The accumulated rounding and growth over arbitrarily many generations cannot be sampled.", "anchors": ["EDAspy/optimization/univariate/umda_continuous.py", "EDAspy/optimization/univariate/pbil.py", "EDAspy/optimization/eda.py:EDA.minimize"]}
{"id": "C105", "title": "a larger budget only continues the run", "statement": "Two optimisers constructed with the same arguments except for a larger max_iter (and possibly a larger dead_iter) and minimized from the same state of the random generator: if the run with the smaller budget raises, the other raises the same exception in the same state; if it completes, the longer run begins with exactly the same cost calls, selections, training data and messages and its history starts with the history of the shorter run; if the shorter run stopped early and dead_iter is the same, the longer run returns the same result. With ftol equal to zero the longer run, if it returns, reports a best_cost that is no higher than the shorter run's; with the default ftol it can be higher.", "quantifier": "all algorithms and EDACustom, all cost functions, all random streams, all budgets", "why_tests_cant": "Relates two runs, for all cost functions and all random streams.", "anchors": ["EDAspy/optimization/eda.py:EDA.minimize"]}
{"id": "C106", "title": "the order of the selected individuals does not change what is learned", "statement": "Learning from two data sets with the same rows in different orders: UniBin (integer cells) learns the same probabilities and UniCategorical (columns of strings or of integers) the same table in the same order; UniGauss and MultiGauss learn the same means, deviations and covariances in exact arithmetic, and in binary64 UniGauss learns means and deviations that differ by no more than 4nB/2^53 + 2^-1074 and (12n+14)B/2^53 + 2^-529 (n rows of magnitude at most B). In binary64 they need not be equal; for AdaptUniGauss, which looks at the first two rows and the last one, the order matters even in exact arithmetic.", "quantifier": "all data sets, all permutations of the rows, all previous model states, all summation orders", "why_tests_cant": "Relates two data sets, for all permutations.", "anchors": ["EDAspy/optimization/custom/probabilistic_models/univariate_binary.py:UniBin.learn", "EDAspy/optimization/custom/probabilistic_models/univariate_gaussian.py:UniGauss.learn", "EDAspy/optimization/custom/probabilistic_models/multivariate_gaussian.py:MultiGauss.learn", "EDAspy/optimization/custom/probabilistic_models/univariate_categorical.py:UniCategorical.learn", "EDAspy/optimization/custom/probabilistic_models/adaptive_univariate_gaussian.py:AdaptUniGauss.learn"]}
{"id": "C107", "title": "the order in which the variables are listed does not matter", "statement": "Take UMDAc, PBIL or UMDAd (with a probability per variable) and list the variables in another order: bounds, starting vector, init_data and the argument of the cost function rearranged alike, and a random generator that gives every variable the same numbers. Then the constructor raises the same exception, or minimize returns the same best_cost, history, nfev and exception, with the same messages, the best individual and every generation, selection and training set being the same with their variables rearranged. What MultiGauss (EMNA) and UniCategorical (UMDAcat) learn from a rearranged data set is likewise what they learn from the original one, rearranged.", "quantifier": "all permutations, all cost functions, all random streams, all settings, all summation orders", "why_tests_cant": "Relates two runs, for all permutations, cost functions and random streams.", "anchors": ["EDAspy/optimization/univariate/umda_continuous.py", "EDAspy/optimization/univariate/pbil.py", "EDAspy/optimization/univariate/umda_binary.py", "EDAspy/optimization/custom/probabilistic_models/multivariate_gaussian.py:MultiGauss.learn", "EDAspy/optimization/custom/probabilistic_models/univariate_categorical.py:UniCategorical.learn"]}
{"id": "C108", "title": "only the order of the category names matters", "statement": "Give the categories of UMDAcat new names, per variable and in the same alphabetical order, in the declared values, in init_data and in the cost function: the constructor raises the same exception, or minimize with the same random numbers makes the same run under the new names (same costs, history, nfev, exception and messages; every individual renamed). New names in another order can lead to another run with the same random numbers.", "quantifier": "all string categories, all renamings that keep the order, all cost functions, all random streams, all settings", "why_tests_cant": "Relates two runs, for all renamings and random streams.", "anchors": ["EDAspy/optimization/univariate/umda_categorical.py", "EDAspy/optimization/custom/probabilistic_models/univariate_categorical.py:UniCategorical", "EDAspy/optimization/custom/initialization_models/categorical_geninit.py"]}
{"id": "C109", "title": "identical individuals teach the models that individual", "statement": "When all selected individuals are the same individual x: UniCategorical learns the table in which every variable has the single category x_i with probability 1, and every individual sampled from it is x again; UniBin learns, per variable, the bit x_i clamped to [lower_bound, upper_bound]; in exact arithmetic UniGauss (at least one row) and AdaptUniGauss (at least two rows, whatever alpha) learn the mean x_i and the deviation max(lower_factor, 0), and MultiGauss the mean vector x and a matrix with zeros on the diagonal and the clamped zero elsewhere. In binary64 UniGauss learns exactly x_i and max(lower_factor, 0) when x_i = m*2^e with |m| times the number of rows below 2^53; for other values the mean may differ from x_i and the deviation be positive, as for six times 0.1.", "quantifier": "all individuals, all numbers of rows, all previous model states, all summation orders", "why_tests_cant": "Quantifies over all individuals and row counts.", "anchors": ["EDAspy/optimization/custom/probabilistic_models/univariate_categorical.py:UniCategorical", "EDAspy/optimization/custom/probabilistic_models/univariate_binary.py:UniBin.learn", "EDAspy/optimization/custom/probabilistic_models/univariate_gaussian.py:UniGauss.learn", "EDAspy/optimization/custom/probabilistic_models/adaptive_univariate_gaussian.py:AdaptUniGauss.learn", "EDAspy/optimization/custom/probabilistic_models/multivariate_gaussian.py:MultiGauss.learn"]}
{"id": "C110", "title": "a converged UMDAcat run stays where it is", "statement": "The elite and the selected individuals are initial segments of one order, so the smaller of the two sets is the beginning of the larger. Hence in UMDAcat with elite_factor <= alpha a value that no selected individual has for a variable appears in no later generation and no later training data, and once all selected individuals are the same individual, every later generation and every later training set consists of copies of it.", "quantifier": "all runs, all iterations, all cost functions, all random streams, all category tables, all orders of equal costs", "why_tests_cant": "Quantifies over all later iterations and random draws.", "anchors": ["EDAspy/optimization/eda.py:EDA._truncation", "EDAspy/optimization/univariate/umda_categorical.py", "EDAspy/optimization/custom/probabilistic_models/univariate_categorical.py:UniCategorical"]}
{"id": "C111", "title": "variables that the cost function ignores do not influence the others", "statement": "Take UMDAc, PBIL or UMDAd (with a probability per variable) and a cost function that depends only on some of the variables. Whenever the optimiser over all variables can be constructed and its run returns, the optimiser over those variables alone (bounds, starting vector and init_data restricted to them, otherwise the same arguments) can be constructed, and with the same random numbers for those variables its run returns the same best_cost, nfev and history and prints the same progress; its best individual, generations, selections and training data are those of the first run without the ignored variables. What MultiGauss (EMNA; at least two variables) and UniCategorical (UMDAcat) learn about some of the variables is what they learn from those variables alone.", "quantifier": "all selections of variables, all cost functions, all random streams, all settings, all summation orders", "why_tests_cant": "Relates two runs of different dimension, for all cost functions and random streams.", "anchors": ["EDAspy/optimization/univariate/umda_continuous.py", "EDAspy/optimization/univariate/pbil.py", "EDAspy/optimization/univariate/umda_binary.py", "EDAspy/optimization/custom/probabilistic_models/multivariate_gaussian.py:MultiGauss.learn", "EDAspy/optimization/custom/probabilistic_models/univariate_categorical.py:UniCategorical.learn"]}
{"id": "C112", "title": "learning does not depend on the units of measurement", "statement": "In exact arithmetic, let every individual be written in other units: variable i as a_i*v + b_i instead of v. UniGauss and AdaptUniGauss (lower_factor in the same unit, whatever alpha) then learn the mean a_i*m + b_i and the deviation |a_i|*s where they learned m and s before. MultiGauss learns the means a_i*m + b_i and the covariances a_i*a_j*c (lower_factor and upper_factor in the unit of a covariance), on the diagonal included.", "quantifier": "all data sets, all units, all previous model states", "why_tests_cant": "Quantifies over all data sets and units of measurement.", "anchors": ["EDAspy/optimization/custom/probabilistic_models/univariate_gaussian.py:UniGauss.learn", "EDAspy/optimization/custom/probabilistic_models/adaptive_univariate_gaussian.py:AdaptUniGauss.learn", "EDAspy/optimization/custom/probabilistic_models/multivariate_gaussian.py:MultiGauss.learn"]}
{"id": "C113", "title": "the benchmark functions are accurate in binary64", "statement": "Let squares, powers, cos, sin and exp be computed with relative error at most eps (2^-53 <= eps <= 2^-20), and self.d be at most 100. For numbers of magnitude at most 2^100 the bent cigar, discus and Griewank functions and the elliptic function (at least two numbers) return a finite value whose distance from the exact value of the formula in the source is at most (4d+5), (4d+3), (4d+7) and (4d+68) times eps, relatively, plus 2^-1040. For numbers between -100 and 100 the absolute error is at most d(9.3e10 + 2.1e10 d) eps for Rosenbrock, (15000 + 1700 d) eps for Ackley, d(72000 + 21000 d) eps for Rastrigin, d(1520 + 5d) eps for the expanded Schaffer function 28000 eps (v + 10/d^2) for the value v of Katsuura, d(22000000 + 101000 d) eps for Weierstrass and d(43000 + 1900 d) eps for the modified Schwefel function; for HappyCat and HGBat it is at most (d(41000 + 21000 d) eps)^(1/4) + (42000 + 11000 d) eps and (d^2(8.1e8 + 4.1e8 d) eps)^(1/2) + (110000 + 42000 d) eps.", "quantifier": "all arguments in the stated ranges, all dimensions up to 100, all C libraries of the stated accuracy", "why_tests_cant": "The worst case over all arguments and all libraries cannot be sampled.", "anchors": ["EDAspy/benchmarks/continuous.py"]}
{"id": "C114", "title": "numbers that are not finite are not hidden by the benchmark functions", "statement": "Let squares, cos, sin and exp of NaN be NaN, squares of infinities not finite and cos and sin of infinities NaN. If one of the first self.d numbers of the argument is NaN then every continuous benchmark function (Rosenbrock and elliptic: with at least two variables) returns NaN, except that Katsuura raises and the modified Schwefel function raises TypeError; if it is NaN or infinite then the result is NaN or infinite, or there is an exception. With one variable the Rosenbrock function returns 0, its minimum, for NaN.", "quantifier": "all arguments, all positions, all dimensions, all C libraries with these values", "why_tests_cant": "The position of the NaN and the other numbers cannot be enumerated.", "anchors": ["EDAspy/benchmarks/continuous.py"]}
{"id": "C115", "title": "the CEC 2014 functions in double arithmetic have their bias as minimum, reached at the shift", "statement": "Let the shift and rotation files hold finite numbers in the right quantity, squares, powers, cos, sin, exp and round have the usual values at 0 and 1 (for zeros of either sign), and the matrix product of finite numbers with zeros be zero in whatever order it is summed. For x equal to the shift vector, cec14_k in double arithmetic returns exactly 100 k. For no x, finite or not, does it return less than 100 k (functions 1-4, 7-9, 12 and 16; functions 5 and 6 when exp is at most 1 up to 0 and at most np.e up to 1, so that Ackley's function is never below 2**-51, its value at the origin). If a number of x is NaN or infinite, cec14_k raises or returns NaN or an infinity, for every k. The first sentence is false for function 5, which returns exactly 800; functions 10, 11, 13, 14 and 16 miss the bias by the amounts of C63, and with one variable only functions 8 and 10 exist.", "quantifier": "all dimensions, all file contents, all arguments, all summation orders, all C libraries with these values", "why_tests_cant": "Rotation matrices, arguments and summation orders cannot be enumerated; a rounding error at the shift would show up only on some machines.", "anchors": ["EDAspy/benchmarks/continuous.py"]}
{"id": "C116", "title": "the CEC 2014 functions are accurate in binary64", "statement": "Let squares, powers, cos, sin and exp be computed with relative error at most eps (2^-53 <= eps <= 2^-20), the products of a row of the rotation and a vector with an error of at most 4d roundings of the sum of the magnitudes, the shifts lie in [-100, 100], the entries of the rotations in [-4, 4] and x in [-100, 100]^d with d = 10, 20, 30, 50 or 100. Then cec14_k returns a finite number that is near the value of its formula (function k of the exact argument plus bias) at a point each of whose coordinates is within d(3250 d + 6500) C 2^-53 of the exact argument M C (x - shift), C the scale factor of function k (twice that for functions 4 and 16, which add 1). Near means: for functions 1, 2, 3 and 7 a relative error of (8d + 137) eps or less plus the same relative error of the bias; for the others, if the exact argument lies in [-98, 98]^d, a relative error of 2^-53 plus twice the error bound of C113 (for function 12, 56001 eps relatively plus 6.8e7 eps). For function 8 the condition on the argument always holds.", "quantifier": "all arguments in the box, all files in the stated ranges, all summation orders and all C libraries of the stated accuracy", "why_tests_cant": "The worst case over all arguments, files, summation orders and libraries cannot be sampled.", "anchors": ["EDAspy/benchmarks/continuous.py"]}
{"id": "C117", "title": "random Gaussian initialisers draw whole numbers between the bounds", "statement": "Let the bounds be integers of magnitude below 2^48. The n_variables means that UniGaussGenInit and MultiGaussGenInit draw when no vectors are given are integers from the lower to the upper bound, both included, and every vector of such integers can come out. UniGaussGenInit draws n_variables standard deviations, each |lower|/4 plus a natural number and below |higher|/2, and every vector of such numbers can come out, together with every vector of means. MultiGaussGenInit draws an n_variables by n_variables matrix of integers from the lower to the upper bound, and every such matrix can come out. If there is no such number to draw (lower above higher; for UniGaussGenInit also |lower|/4 not below |higher|/2) and n_variables is at least 1, the constructor raises ValueError.", "quantifier": "all integer bounds below 2^48, all numbers of variables, all random generators", "why_tests_cant": "Quantifies over all bounds and random streams; that every vector can come out is about all generators.", "anchors": ["EDAspy/optimization/custom/initialization_models/uni_gauss_geninit.py:UniGaussGenInit.__init__", "EDAspy/optimization/custom/initialization_models/multi_gauss_geninit.py:MultiGaussGenInit.__init__"]}
{"id": "C118", "title": "the random covariance matrix is a covariance matrix", "statement": "The matrix that MultiGaussGenInit draws when none is given is symmetric and has no negative variance on its diagonal.", "quantifier": "all integer bounds below 2^48, all numbers of variables, all random generators", "why_tests_cant": "Quantifies over all bounds and random streams.", "anchors": ["EDAspy/optimization/custom/initialization_models/multi_gauss_geninit.py:MultiGaussGenInit.__init__"]}
{"id": "C119", "title": "GBN means and covariances satisfy the network's equations in binary64", "statement": "For a learned Gaussian Bayesian network in double arithmetic, get_mu(vars) and (when no entry overflows) get_sigma(vars) return the values of one vector and one symmetric matrix that depend on the network only, in the order asked. If the mean of a variable is finite then so are the means of its k parents, and it differs from intercept plus the sum of coefficient times parent's mean by at most (1+u)^(k+1) - 1 times the sum of the magnitudes of these terms (u = 2^-53), plus k (1+u)^k 2^-1075. A variance likewise differs from the node's variance plus the sum of parent's variance times squared coefficient by at most (1+u)^(k+2) - 1 times the magnitudes, and the covariance with an earlier variable from the sum of coefficient times the parents' covariances by at most (1+u)^(k+1) - 1 times the magnitudes, up to underflow.", "quantifier": "all networks, all coefficients (of any magnitude, finite or not), all orders of variables", "why_tests_cant": "Rounding errors and overflow for all coefficients cannot be sampled.", "anchors": ["EDAspy/optimization/custom/probabilistic_models/gaussian_bayesian_network.py:GBN.get_mu", "EDAspy/optimization/custom/probabilistic_models/gaussian_bayesian_network.py:GBN.get_sigma"]}
{"id": "C120", "title": "sampled values come out with the probabilities of the model", "statement": "Count over the 2^53 equally likely values k/2^53 of numpy's random_sample. Sampling bits with probability p (UniBin, UniBinGenInit): cell (i,j) is 1 exactly when the draw (i,j) is in a set containing a fraction q of them, with p <= q < p + 2^-53. UniBin after learning from bits: the fraction is within 2^-52 of the frequency of ones forced between the bounds. np.random.choice over n <= 2^40 distinct values with probabilities p: value k is returned for a fraction within n * 2^-48 of p_k divided by the sum of p. UniCategorical after learning: within 2^-25 of the frequency of the value in the column (up to 2^22 rows). CategoricalSampling: within 2^-25 plus twice the deviation of the frequencies' sum from one.", "quantifier": "all probability vectors, all training sets, all sizes, all generators", "why_tests_cant": "A frequency test sees a bias of 10^-3 at best; the claim is exact over all 2^53 draws.", "anchors": ["EDAspy/optimization/custom/probabilistic_models/univariate_binary.py:UniBin.sample", "EDAspy/optimization/custom/probabilistic_models/univariate_categorical.py:UniCategorical.sample", "EDAspy/optimization/custom/initialization_models/uni_bin_geninit.py:UniBinGenInit.sample", "EDAspy/optimization/custom/initialization_models/categorical_geninit.py:CategoricalSampling.sample"]}
{"id": "C121", "title": "UMDAd keeps every bit alive between its bounds", "statement": "Let 0 <= lower_bound < upper_bound <= 1. In every generation after the first, of every run of UMDAd on bits (whatever the optimiser was used for before), variable j of an individual is 1 exactly when its own uniform draw is in a set that depends on the training data and j only and contains a fraction of the 2^53 random values that is at least lower_bound, below upper_bound + 2^-53 and within 2^-52 of the frequency of ones forced between the bounds. If lower_bound > 0 and upper_bound < 1, the smallest random value gives 1 and the largest gives 0, so every matrix of bits is a possible sample; with a lower bound of 0 a column without ones stays so.", "quantifier": "all runs, all training data, all bounds, all target populations", "why_tests_cant": "That every population remains possible is about all of the exponentially many populations.", "anchors": ["EDAspy/optimization/custom/probabilistic_models/univariate_binary.py:UniBin.sample", "EDAspy/optimization/custom/probabilistic_models/univariate_binary.py:UniBin.learn", "EDAspy/optimization/univariate/umda_binary.py:UMDAd"]}
{"id": "C122", "title": "a cost function may return arrays of one entry and no others", "statement": "Let the cost function return nonempty one-dimensional int or float arrays, evaluated serially or in parallel. If every array has one entry, minimize does exactly what it does for the cost function that returns the entry: the same calls, selections, training sets, samples, printed iterations and exceptions; history, best_cost and the printed costs are the arrays of one entry. If max_iter is at least 2 and minimize returns, then every call of the cost function returned one entry. If the arrays have two or more entries and the first generation two or more rows, minimize raises ValueError (or what the cost function raises) without selecting, training or printing anything; when the arrays have the same length and no call raises (in parallel: and there are at least as many rows as cores), this happens after every row of the first generation has been evaluated.", "quantifier": "all optimisers, all cost functions, all lengths (which may differ from call to call), all random streams", "why_tests_cant": "Tests use costs that return numbers; which shapes get through depends on broadcasting for every combination of lengths.", "anchors": ["EDAspy/optimization/eda.py"]}
{"id": "C123", "title": "the univariate models learn maximum-likelihood parameters", "statement": "Consider the likelihood of one column of the training set (at least one, at most 2^53 individuals) under independent draws. UniBin on bits, with 0 <= lower_bound < upper_bound <= 1: exactly one probability between the bounds maximises it, and the learned one is within 2^-53 of that. UniCategorical: among all distributions over the values of the column exactly one maximises it on the values seen, and every learned probability is within 2^-53 of it. UniGauss in exact arithmetic: among all means and all positive deviations not below lower_bound, exactly the learned pair maximises it (unless the learned deviation is 0).", "quantifier": "all training sets, all alternative parameters, all bounds", "why_tests_cant": "Alternatives to the learned parameters are a continuum; a test compares with a few of them.", "anchors": ["EDAspy/optimization/custom/probabilistic_models/univariate_binary.py:UniBin.learn", "EDAspy/optimization/custom/probabilistic_models/univariate_categorical.py:UniCategorical.learn", "EDAspy/optimization/custom/probabilistic_models/univariate_gaussian.py:UniGauss.learn"]}
{"id": "C124", "title": "UMDAd finds the best bit string with a probability that tends to 1", "statement": "Let the random values of a run be independent and uniform on the 2^53 values k/2^53 of random_sample, and let the cost function depend on the bits only. P is the product over the bits of a target string of the fraction of values below lower_bound (for a 1) or not below upper_bound (for a 0). The probability that a run of UMDAd makes all its max_iter generations without evaluating the target is at most (1 - P)^(size_gen (max_iter - 1)), whatever the costs and whatever the optimiser was used for before. If the cost function never fails and dead_iter does not stop the run, it evaluates the target with at least the complementary probability; and if moreover ftol is 0 and no bit string is cheaper than the target, best_cost is the least cost there is with at least that probability. With 0 < lower_bound < upper_bound < 1 this tends to 1 as max_iter grows: for every eps there is a number of generations, the same for all cost functions, from which on it is at least 1 - eps.", "quantifier": "all cost functions, all target strings, all numbers of variables and generations, all bounds, all initial data", "why_tests_cant": "A probability over all random streams, a bound for all cost functions and a limit: none can be observed by running.", "anchors": ["EDAspy/optimization/univariate/umda_binary.py:UMDAd", "EDAspy/optimization/custom/probabilistic_models/univariate_binary.py:UniBin.sample", "EDAspy/optimization/custom/probabilistic_models/univariate_binary.py:UniBin.learn", "EDAspy/optimization/eda.py"]}
{"id": "C125", "title": "UMDAd evaluates the best bit string after a bounded number of individuals on average", "statement": "Under the assumptions and with the P of C124, count the generations that a run of UMDAd evaluates before the first that holds a target bit string (all of them if none does). The probability that there are more than k is at most (1 - P)^(size_gen k), for every k, whatever the costs, the bounds, dead_iter, max_iter and the way the run ends. If 0 < lower_bound and upper_bound < 1, their mean is at most 1/(1 - (1 - P)^size_gen), and the mean number of individuals in them at most size_gen + 1/P. Neither bound depends on the cost function or on max_iter.", "quantifier": "all cost functions (failing ones included), all target strings, all numbers of variables and generations, all bounds, all initial data", "why_tests_cant": "A mean over all random streams that holds for all cost functions.", "anchors": ["EDAspy/optimization/univariate/umda_binary.py:UMDAd", "EDAspy/optimization/custom/probabilistic_models/univariate_binary.py:UniBin.sample", "EDAspy/optimization/custom/probabilistic_models/univariate_binary.py:UniBin.learn", "EDAspy/optimization/eda.py"]}
{"id": "C126", "title": "without bounds on the probabilities UMDAd can lose the best bit string for good", "statement": "Random values as in C124, no init_data. Say that a 1 of a target bit string is at risk if lower_bound is 0, and a 0 if upper_bound is 1 (what the documentation recommends if no bounds are desired). The probability that a run of UMDAd ever evaluates the target is at most the product, over its bits at risk, of 1 - m^size_gen, where m is the chance that an individual of the first generation lacks the bit. With the default vector this is (1 - 2^-size_gen)^k for k bits at risk. If the target is the only string with its cost, a run returns this cost as best_cost with at most the same probability. The bounds hold whatever the cost function, max_iter and dead_iter, so more generations do not help, unlike in C124.", "quantifier": "all cost functions (failing ones included in the first part), all target strings, all numbers of variables and generations, all initial vectors", "why_tests_cant": "A probability over all random streams, for all cost functions and every number of generations.", "anchors": ["EDAspy/optimization/univariate/umda_binary.py:UMDAd", "EDAspy/optimization/custom/probabilistic_models/univariate_binary.py:UniBin.sample", "EDAspy/optimization/custom/probabilistic_models/univariate_binary.py:UniBin.learn", "EDAspy/optimization/custom/initialization_models/uni_bin_geninit.py:UniBinGenInit.sample"]}
{"id": "C127", "title": "UMDAcat never evaluates a value that the first generation lacks", "statement": "Whatever the way a run of UMDAcat ends and whatever it was used for before, a value that a variable has in some generation is one that it has in the first. Hence, with the random values of C124 and no init_data, the probability that a run ever evaluates a solution x is at most the product over the variables of 1 - (1 - q)^size_gen, where q differs from the frequency declared for the variable's value in x by at most 2^-25 plus twice the deviation of the declared frequencies' sum from one. This bound does not depend on the cost function (which may be random or fail), alpha, max_iter or dead_iter. If x is the only solution with its cost, a run returns that cost as best_cost with at most the same probability.", "quantifier": "all cost functions, all possible values and frequencies, all target solutions, all numbers of variables and generations", "why_tests_cant": "A probability over all random streams, for all cost functions and every number of generations.", "anchors": ["EDAspy/optimization/univariate/umda_categorical.py:UMDAcat", "EDAspy/optimization/custom/probabilistic_models/univariate_categorical.py:UniCategorical.sample", "EDAspy/optimization/custom/probabilistic_models/univariate_categorical.py:UniCategorical.learn", "EDAspy/optimization/custom/initialization_models/categorical_geninit.py:CategoricalSampling.sample"]}
{"id": "C128", "title": "the random numbers of a run do not depend on the cost function", "statement": "The initial generation of a run of any of the algorithms is determined by the constructor's arguments and the state of numpy's generator before the run. For UMDAc, PBIL, UMDAd and UMDAcat and a cost function that draws no random numbers (or parallelize=True): generation k + 1 is determined by these, k and the k-th training set; in UMDAc and PBIL it is mean + deviation * Z and in UMDAd U < p, where the matrix Z or U of generation k is the same for all cost functions; and the state in which a run that returns leaves the generator is determined by the state before it and the length of the history. This holds whatever the optimiser was used for before, and the statements on generations also for runs that raise.", "quantifier": "all pairs of cost functions, all algorithms named, all settings, all states of the generator, all numbers of generations", "why_tests_cant": "It compares the runs of all pairs of cost functions.", "anchors": ["EDAspy/optimization/eda.py", "EDAspy/optimization/custom/probabilistic_models/univariate_gaussian.py:UniGauss.sample", "EDAspy/optimization/custom/probabilistic_models/adaptive_univariate_gaussian.py:AdaptUniGauss.sample", "EDAspy/optimization/custom/probabilistic_models/univariate_binary.py:UniBin.sample", "EDAspy/optimization/custom/probabilistic_models/univariate_categorical.py:UniCategorical.sample"]}
{"id": "C129", "title": "uniform initialisation is uniform", "statement": "Let UniformGenInit get finite bounds l < h for a variable, of magnitude at most M. The value of individual i in this variable is a function of its own random draw (i, j) alone, the same function for every individual; and for every t between l and h the fraction of the 2^53 equally likely draws that give a value of at most t differs from (t - l)/(h - l) by at most (10 M 2^-53 + 2^-1075)/(h - l). The same holds of the first generation of every run of UMDAc, PBIL (without vector), EGNA, EMNA, SPEDA and the KEDAs without init_data, with the generator as it was when minimize was called.", "quantifier": "all bounds accepted, all thresholds t, all sizes, all algorithms named, all generators", "why_tests_cant": "The distribution is over all 2^53 draws and the bound on its error is far below what any sample can show.", "anchors": ["EDAspy/optimization/custom/initialization_models/uniform_geninit.py:UniformGenInit.sample", "EDAspy/optimization/eda.py"]}
{"id": "C130", "title": "a run started from bounds is at least as good as random search with one generation", "statement": "Random values of the first generation as in C124, finite bounds l < h per variable of magnitude at most M, no init_data. Take a box whose side [a, b] in each variable lies in [l, h], and a number s >= 0 per variable with s (h - l) + 18 M 2^-53 + 2^-1074 <= b - a. The probability that the first generation of UMDAc, PBIL (without vector), EGNA, EMNA, SPEDA or a KEDA is evaluated without an individual in the box is at most (1 - product of the s)^size_gen. Hence, with ftol = 0 and a cost function that is at most c in the box, the probability that minimize returns a best_cost above c is at most the same, whatever random numbers are drawn after the first generation and whatever the optimiser was used for before.", "quantifier": "all cost functions, all boxes, all numbers of variables, all bounds, all algorithms named, all later random numbers", "why_tests_cant": "A probability over all random streams, for all cost functions.", "anchors": ["EDAspy/optimization/custom/initialization_models/uniform_geninit.py:UniformGenInit.sample", "EDAspy/optimization/eda.py"]}
{"id": "C131", "title": "a run of UMDAd, UMDAcat or EBNA is at least as good as random search with one generation", "statement": "Random values of the first generation as in C124, no init_data. Let the solution x consist of one bit per variable (UMDAd) or of one possible value per variable (UMDAcat, EBNA). The probability that the first generation is evaluated and does not hold x is at most (1 - P)^size_gen, where P is the product over the variables of the chance of the value: the fraction of draws below the variable's entry of vector (for a 1) or not below (for a 0), hence 2^-n_variables in all for the default vector; and for categories a number that differs from the declared frequency by at most 2^-25 plus twice the deviation of the declared frequencies' sum from one. Hence with ftol = 0 the probability that minimize returns a best_cost above the cost of x is at most the same, whatever random numbers are drawn after the first generation and whatever the optimiser was used for before. Together with C124 this gives, for all generations of a UMDAd run, the product of both bounds.", "quantifier": "all cost functions, all solutions, all numbers of variables, all vectors and frequencies, all later random numbers", "why_tests_cant": "A probability over all random streams, for all cost functions.", "anchors": ["EDAspy/optimization/custom/initialization_models/uni_bin_geninit.py:UniBinGenInit.sample", "EDAspy/optimization/custom/initialization_models/categorical_geninit.py:CategoricalSampling.sample", "EDAspy/optimization/eda.py"]}
{"id": "C132", "title": "the cost returned is within the tolerance of every cost seen, whatever their signs", "statement": "Let ftol be finite and non-negative and minimize return. For every individual evaluated in generation k of N with cost v (not NaN): if v >= 0, best_cost is at most v multiplied N - 1 - k times by 1 + ftol (in floating point); if v <= 0, best_cost <= 0 and best_cost (1 + ftol) <= v. This holds for costs of both signs and for every optimiser, user-defined ones included. Hence the guarantees of C124, C130 and C131 hold for every such ftol (the default 1e-8 included) once \"above c\" is read as above c multiplied max_iter - 1 times by 1 + ftol if c >= 0, and as best_cost (1 + ftol) > c otherwise.", "quantifier": "all cost functions, all tolerances, all runs that return, all optimisers, all random numbers", "why_tests_cant": "A bound for all cost functions and histories, and probabilities over all random streams.", "anchors": ["EDAspy/optimization/eda.py", "EDAspy/optimization/custom/initialization_models/uniform_geninit.py:UniformGenInit.sample", "EDAspy/optimization/custom/initialization_models/uni_bin_geninit.py:UniBinGenInit.sample", "EDAspy/optimization/custom/initialization_models/categorical_geninit.py:CategoricalSampling.sample"]}
{"id": "C133", "title": "the order in which the individuals of init_data are listed does not matter", "statement": "Let the cost function depend on the individual only, its values on init_data be numbers (not NaN), different for different individuals. Then listing the individuals of init_data in another order, with the same random numbers, changes nothing but the order in which the first generation is evaluated and the position reported for a best initial individual: same history, best_cost, n_f_eval and settings (or the same exception), same selections, training sets, later generations and progress lines. This fails in general, because the individual listed first enters the first selection twice (it is also the initial elite); it holds for every reordering that keeps the first individual in place.", "quantifier": "all optimisers (user-defined ones included), all init_data, all reorderings, all cost functions, all runs, all random numbers, serial or parallel", "why_tests_cant": "All runs of all optimisers are compared two at a time, for all permutations.", "anchors": ["EDAspy/optimization/eda.py"]}
{"id": "C134", "title": "the unit of the variables does not matter", "statement": "Take UMDAc or PBIL and change the unit in which all variables are measured by a factor 2^e, |e| <= 50: multiply lower_bound, upper_bound, vector, init_data, lower_factor and w_noise (0, None or positive) by 2^e and let the cost function expect the new unit. With the same random numbers, if the first optimiser can be constructed so can the second, and if a run of the first returns and the numbers in it are ordinary (arguments, random numbers and individuals zero or of magnitude between 2^-100 and 2^100, training sets of 1 to 2^40 individuals), the second returns the same best_cost, n_f_eval and history, and all its individuals (best, evaluated, selected, learned from) are those of the first times 2^e, to the last bit. This needs lower_factor and w_noise to be multiplied too: with either default left in place the runs differ, for both are absolute lengths.", "quantifier": "all cost functions, all factors 2^e, all settings, all random numbers of ordinary size, all orders of summation that depend only on the number of terms, all runs that return", "why_tests_cant": "All pairs of runs are compared to the last bit of every number, through every rounding of the learned means and deviations.", "anchors": ["EDAspy/optimization/custom/probabilistic_models/univariate_gaussian.py:UniGauss.learn", "EDAspy/optimization/custom/probabilistic_models/adaptive_univariate_gaussian.py:AdaptUniGauss.learn", "EDAspy/optimization/custom/probabilistic_models/univariate_gaussian.py:UniGauss.sample", "EDAspy/optimization/custom/initialization_models/uniform_geninit.py:UniformGenInit.sample", "EDAspy/optimization/custom/initialization_models/uni_gauss_geninit.py:UniGaussGenInit.sample", "EDAspy/optimization/eda.py"]}
{"id": "C135", "title": "selection never raises the average cost", "statement": "Whenever minimize selects a training set while all costs evaluated so far are finite and the set is not empty, the exact average of its costs is at most the average over everything selected from (the generation and the previous elite), and at most the average over any choice of at least as many of these individuals, hence at most the average of the generation if the training set is not larger than it. Likewise the average cost of the elite is at most that of the previous elite, of the generation and of the training set, whichever of these it does not outnumber; so the average cost of an elite of constant size never rises during a run. If the costs selected from are not all equal, the training set and the elite, if not empty and smaller than what they are selected from, are on average strictly cheaper than it. This holds at every selection of every run, whether it returns or raises, and for every optimiser, user-defined ones included.", "quantifier": "all cost functions, all optimisers, all settings, all runs and all selections in them, serial or parallel", "why_tests_cant": "It compares real-number averages for every population, including those whose sums would round or overflow in floating point.", "anchors": ["EDAspy/optimization/eda.py"]}
{"id": "C136", "title": "on additive cost functions the learned model is on average no dearer than the generation", "statement": "Let the cost of an individual be a sum of one contribution per variable, up to an error of at most eps. Whenever minimize selects a training set (not empty, not larger than the generation, all costs so far finite), what UniCategorical.learn or, if the contributions are linear in the variables, UniGauss.learn or MultiGauss.learn learns from that set has an expected sum (under the probabilities or means the model then holds) of at most the average cost of the generation, plus eps, plus a rounding term: at most n B 2^-53 per variable for n training individuals and contributions of magnitude at most B, and K (2 n B 2^-53 + 2^-1075) per variable for slopes of magnitude at most K and values of magnitude at most B. For UniBin.learn and linear contributions of the bits the last term is K (2^-53 + max(lower_bound, 1 - upper_bound)) per variable, for its bounds can move a probability that far. So without rounding errors and bounds on the probabilities a model never expects a worse cost than the generation it was learned from had.", "quantifier": "all additive (linear) cost functions, all numbers of variables, all runs of all optimisers and all selections in them, all earlier states of the model, all orders of summation", "why_tests_cant": "It compares an expectation with the averages of all possible generations, including all rounding.", "anchors": ["EDAspy/optimization/eda.py", "EDAspy/optimization/custom/probabilistic_models/univariate_categorical.py:UniCategorical.learn", "EDAspy/optimization/custom/probabilistic_models/univariate_gaussian.py:UniGauss.learn", "EDAspy/optimization/custom/probabilistic_models/univariate_binary.py:UniBin.learn", "EDAspy/optimization/custom/probabilistic_models/multivariate_gaussian.py:MultiGauss.learn"]}
{"id": "C137", "title": "selection keeps as many individuals under any cost as there is room for", "statement": "Whenever minimize selects, for every float v (infinite and NaN included, NaN counting as the largest cost): the number of training individuals of cost at most v is the number of such individuals in the generation and the previous elite (before the first selection: the first individual evaluated) or truncation_length, whichever is smaller; likewise for the elite and elite_length (int(size_gen * elite_factor)); and the number of such individuals in the elite is at least the number of such individuals ever evaluated in this run or elite_length, whichever is smaller. During a run the number of elite individuals of cost at most v never falls, so for every rank the cost of that rank in the elite never rises. This holds for every optimiser, whether the run returns or raises.", "quantifier": "all cost functions (NaN and infinite costs included), all thresholds, all optimisers, all settings with lengths that are not negative, all runs and all selections in them", "why_tests_cant": "It is an equation for every threshold and every run, with ties, NaN and infinities.", "anchors": ["EDAspy/optimization/eda.py"]}
