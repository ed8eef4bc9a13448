{"id": "C01", "title": "zip_inputs inverts unzip_inputs on every valid configuration", "statement": "For a Design_space without bandit variables and any matrix of configurations whose rows have one entry per variable and whose categorical entries are integers 0..k-1, zip_inputs(unzip_inputs(X)) returns X unchanged. Every unzipped row has exactly model_dimensionality columns. Outside that guard the property fails: a categorical variable whose domain is not 0..k-1 either raises IndexError or comes back as a different value.", "quantifier": "all spaces (any number, order and kind of non-bandit variables), all matrices of configurations", "why_tests_cant": "the encoding is a variable-width concatenation; a test fixes one layout, the law must hold for all layouts and values", "anchors": ["GPyOpt/core/task/space.py:Design_space.unzip_inputs", "GPyOpt/core/task/space.py:Design_space.zip_inputs", "GPyOpt/core/task/variables.py:CategoricalVariable.objective_to_model"]}
{"id": "C02", "title": "unzip_inputs inverts zip_inputs on every encoded point, so encodings are unique", "statement": "For a non-bandit space and any matrix of model-space rows that are valid encodings (one-hot blocks for categorical variables), unzip_inputs(zip_inputs(Z)) = Z. Two valid configurations with the same encoding are equal.", "quantifier": "all non-bandit spaces, all matrices of valid encodings", "why_tests_cant": "injectivity is a statement about all pairs of points", "anchors": ["GPyOpt/core/task/space.py:Design_space.zip_inputs", "GPyOpt/core/task/space.py:Design_space.model_to_objective"]}
{"id": "C03", "title": "round_optimum always lands in the design space", "statement": "For every space with well-formed domains (lower bound <= upper bound, non-empty value lists) that has no bandit variable, or exactly one, round_optimum(x) succeeds on every vector x of model_dimensionality numbers and returns one row whose every block lies in the domain of its variable: inside the interval, one of the discrete values, a one-hot vector, or one of the arms.", "quantifier": "all well-formed spaces, all real vectors of the right length", "why_tests_cant": "feasibility of the rounded point must hold for any optimizer output", "anchors": ["GPyOpt/core/task/space.py:Design_space.round_optimum", "GPyOpt/core/task/variables.py:*.round"]}
{"id": "C04", "title": "round_optimum is the Euclidean projection onto the design space and fixes its points", "statement": "round_optimum(x) minimises the Euclidean distance to x over all points of the (encoded) design space, and returns x itself when x already is such a point; in particular it is idempotent.", "quantifier": "all well-formed spaces, all vectors, all competing points of the design space", "why_tests_cant": "a minimality claim over an infinite set of competitors", "anchors": ["GPyOpt/core/task/space.py:Design_space.round_optimum", "GPyOpt/core/task/variables.py:*.round"]}
{"id": "C05", "title": "Model-space layout: bounds, dimensions and variable columns agree", "statement": "For every non-bandit space, get_bounds() has exactly model_dimensionality entries, every valid encoded point lies componentwise within get_bounds(), and the column indices of the variables partition 0..model_dimensionality-1 in order, so that variable k owns exactly the columns its block occupies.", "quantifier": "all non-bandit spaces, all valid encodings", "why_tests_cant": "a consistency relation between four independently computed lists, for every mix of variable types", "anchors": ["GPyOpt/core/task/space.py:Design_space.get_bounds", "GPyOpt/core/task/space.py:Design_space._compute_variables_indices"]}
{"id": "C06", "title": "Design_space construction accepts exactly the well-formed descriptions", "statement": "Building a Design_space raises InvalidConfigError when a descriptor has no domain, an unknown type, arms of different lengths, or when bandit and non-bandit variables are mixed; a descriptor with a dimensionality but no name then raises KeyError, and a bandit whose arms are a plain list instead of an array raises AttributeError; otherwise it succeeds and yields, in order, one single-dimension variable per dimension of each descriptor (one per bandit), with objective_dimensionality and model_dimensionality equal to the number of variables and of encoded columns.", "quantifier": "all lists of descriptors", "why_tests_cant": "validation logic must classify every description", "anchors": ["GPyOpt/core/task/space.py:Design_space.__init__", "GPyOpt/core/task/space.py:Design_space._translate_space", "GPyOpt/core/task/variables.py:create_variable"]}
{"id": "C07", "title": "Variables are found by their (expanded) names", "statement": "find_variable(n) raises InvalidVariableNameError exactly when no single-dimension variable is called n, and otherwise returns a variable called n; when the expanded names are pairwise different it returns the one at its position. Names of a multi-dimensional variable are name_1..name_d. Distinct user names do not guarantee distinct expanded names: {x of dimension 2, x_1} collides, and then the later variable silently wins.", "quantifier": "all spaces, all names", "why_tests_cant": "a lookup law for all name sets; the collision only appears for particular user names", "anchors": ["GPyOpt/core/task/space.py:Design_space.find_variable", "GPyOpt/core/task/variables.py:Variable.expand"]}
{"id": "C08", "title": "indicator_constraints is 1 exactly on the feasible rows", "statement": "indicator_constraints(x) returns one entry per row, equal to 1 when every constraint function is <= 0 at that row and 0 when some constraint is > 0; with no constraints it is all ones; if a constraint raises on some row the exception propagates.", "quantifier": "all constraint lists, all matrices", "why_tests_cant": "conjunction over arbitrary constraint lists and rows", "anchors": ["GPyOpt/core/task/space.py:Design_space.indicator_constraints"]}
{"id": "C09", "title": "Spaces with two or more multi-dimensional bandit variables", "statement": "A user may list several bandit variables (the class documentation does so). Then an initial design row should be the concatenation of one arm of each, and round_optimum should return one row. This holds for one bandit variable; it is false for two arms-of-length-2 variables: the random design writes the second arm over the tail of the first and leaves columns unwritten, and round_optimum returns one row per variable.", "quantifier": "all bandit spaces, all random draws, all vectors", "why_tests_cant": "tests use a single bandit variable", "anchors": ["GPyOpt/experiment_design/random_design.py:RandomDesign.fill_noncontinous_variables", "GPyOpt/core/task/space.py:Design_space.round_optimum"]}
{"id": "C10", "title": "Random initial designs stay in the domain", "statement": "For every well-formed non-bandit space (or one with a single bandit) without constraints, and whatever the random generator draws, the random design returns exactly the requested number of rows, and every entry lies in the domain of its variable.", "quantifier": "all well-formed spaces, all requested sizes, all random draws", "why_tests_cant": "must hold for every state of the random generator", "anchors": ["GPyOpt/experiment_design/random_design.py:RandomDesign.get_samples_without_constraints"]}
{"id": "C11", "title": "Constrained random designs are feasible and complete, or never returned", "statement": "With constraints, whenever the random design returns it returns exactly the requested number of rows, all of them draws from the unconstrained design in drawing order, and all of them satisfying every constraint. If every draw is infeasible it never returns (the rejection loop runs forever). It returns as soon as enough feasible rows have been drawn.", "quantifier": "all constraint sets, all sequences of random draws, all requested sizes", "why_tests_cant": "quantifies over all infinite draw sequences, including the non-terminating ones", "anchors": ["GPyOpt/experiment_design/random_design.py:RandomDesign.get_samples_with_constraints"]}
{"id": "C12", "title": "iroot computes the integer k-th root", "statement": "For all k >= 1 and n >= 1, iroot(k, n) terminates and returns the unique r with r^k <= n < (r+1)^k.", "quantifier": "all k >= 1 and n >= 1, unbounded", "why_tests_cant": "Newton iteration: termination and correctness for all integers", "anchors": ["GPyOpt/experiment_design/grid_design.py:iroot"]}
{"id": "C13", "title": "Grid designs form the full lattice", "statement": "For a space whose variables are continuous, the grid design asked for n >= 1 points returns r^d rows with r = floor(n^(1/d)), never more than n and never fewer than would fit; when r >= 2 the rows are exactly the points of the product lattice lo_i + j*(hi_i-lo_i)/(r-1), each occurring once, all inside the bounds and including all corners of the box.", "quantifier": "all dimensions, all bounds, all requested sizes", "why_tests_cant": "bijection between rows and lattice points for every dimension", "anchors": ["GPyOpt/experiment_design/grid_design.py:GridDesign.get_samples", "GPyOpt/experiment_design/grid_design.py:multigrid"]}
{"id": "C14", "title": "Latin and Sobol designs stay in the box and keep their stratification", "statement": "For every unit-cube design with entries in [0,1], the Latin and Sobol designs map it affinely into the bounds of the continuous variables: every entry lies within its bounds, and if the unit design has exactly one point in each of the n equal strata of a coordinate then so does the scaled design.", "quantifier": "all bounds, all unit-cube designs returned by the generator", "why_tests_cant": "holds for every point set the external generator may return", "anchors": ["GPyOpt/experiment_design/latin_design.py:LatinDesign.get_samples", "GPyOpt/experiment_design/sobol_design.py:SobolDesign.get_samples"]}
{"id": "C15", "title": "Design selection honours constraints", "statement": "initial_design raises ValueError for an unknown design name, raises InvalidConfigError for grid, latin and sobol designs on a constrained space, and for 'random' on a constrained space only ever returns feasible rows: no design returns a row violating a constraint.", "quantifier": "all spaces, design names, sizes and draws", "why_tests_cant": "a safety property over every path through the selector", "anchors": ["GPyOpt/experiment_design/__init__.py:initial_design"]}
{"id": "C16", "title": "Grid designs on spaces without continuous variables", "statement": "The class documentation promises a grid for continuous and random values for other variables. On a bandit-free space without any continuous variable the grid design raises ZeroDivisionError for every requested size, and on a bandit with arms of length two or more it raises IndexError; with at least one continuous variable and n >= 1 the size computation succeeds.", "quantifier": "all spaces without continuous variables, all sizes", "why_tests_cant": "the existing tests always include a continuous variable", "anchors": ["GPyOpt/experiment_design/grid_design.py:GridDesign._adjust_init_points_count"]}
{"id": "C17", "title": "Context expansion fixes the context columns and nothing else", "statement": "For any context over distinct variable names of a non-bandit space with distinct names, expanding a vector of non-context coordinates yields a full row in which each context variable's columns hold the encoded context value and the remaining columns hold the given coordinates in order; projecting the result back gives the original vector, and every full row agreeing with the context is the expansion of its projection.", "quantifier": "all spaces, all contexts, all vectors", "why_tests_cant": "a bijection for every subset of fixed variables", "anchors": ["GPyOpt/optimization/acquisition_optimizer.py:ContextManager"]}
{"id": "C18", "title": "Context and non-context columns partition the model space and bounds stay aligned", "statement": "For any valid context, context and non-context column lists are disjoint, duplicate-free and cover 0..model_dimensionality-1; the non-context bounds are the space bounds at exactly the non-context columns. An unknown context variable raises InvalidVariableNameError.", "quantifier": "all spaces, all contexts", "why_tests_cant": "index arithmetic for every subset of variables", "anchors": ["GPyOpt/optimization/acquisition_optimizer.py:ContextManager.__init__"]}
{"id": "C19", "title": "Suggestions under a context carry exactly the context values", "statement": "When every context value lies in the domain of its variable, every point returned by the acquisition optimizer under that context has the context values at the context variables, whatever the local optimizer returns; the other coordinates lie in their domains. When the value lies outside the domain the suggestion may carry a different (rounded) value.", "quantifier": "all spaces, contexts, acquisition functions, local optimizer results and random designs", "why_tests_cant": "must hold for any behaviour of the external optimizer", "anchors": ["GPyOpt/optimization/optimizer.py:apply_optimizer", "GPyOpt/optimization/acquisition_optimizer.py:AcquisitionOptimizer.optimize"]}
{"id": "C20", "title": "The context-restricted objective and gradient are the restriction of the full ones", "statement": "Under a context, the function handed to the local optimizer maps a non-context vector v to f(expand v), and the gradient handed to it has as its j-th entry the partial derivative of that restricted function with respect to the j-th non-context coordinate, whenever the full gradient is the gradient of f.", "quantifier": "all spaces, contexts, differentiable functions, points", "why_tests_cant": "a statement about all functions and all points", "anchors": ["GPyOpt/optimization/optimizer.py:OptimizationWithContext"]}
{"id": "C21", "title": "Constraints under a context", "statement": "Users expect anchor points generated under a context to satisfy the constraints. When the constraints do not depend on column positions changed by the context this holds, but in general it is false: the constraints are evaluated on rows from which the context columns were removed, so they read the wrong columns or raise IndexError.", "quantifier": "all spaces with constraints, all contexts", "why_tests_cant": "the repository has no test combining constraints and context", "anchors": ["GPyOpt/optimization/anchor_points_generator.py:AnchorPointsGenerator.get"]}
{"id": "C22", "title": "The duplicate manager recognises exactly the known configurations", "statement": "is_zipped_x_duplicate and is_unzipped_x_duplicate answer True exactly for the evaluated rows, the pending rows and the ignored rows, provided the pending and the ignored matrix each contain a non-zero entry. A pending or ignored matrix consisting only of zeros is silently dropped, so e.g. the origin can be suggested although it is pending.", "quantifier": "all spaces and all evaluated/pending/ignored matrices and queries", "why_tests_cant": "set membership for all histories; the zero matrix is a corner case no test covers", "anchors": ["GPyOpt/util/duplicate_manager.py:DuplicateManager"]}
{"id": "C23", "title": "Anchor points are the best-scoring non-duplicates", "statement": "AnchorPointsGenerator.get returns min(num_anchor, m) rows where m is the number of design rows not known to the duplicate manager; each returned row is such a row, and no omitted non-duplicate row scores strictly lower than a returned one; it raises FullyExploredOptimizationDomainError exactly when m = 0. The score is the acquisition value for the default logic (so the starting points of the acquisition search are the new candidates of lowest acquisition), mean plus deviation times a normal draw for Thompson sampling, and the position for the random batch evaluator.", "quantifier": "all designs, scores (any tie-breaking of the sort), duplicate sets", "why_tests_cant": "selection optimality for all score vectors", "anchors": ["GPyOpt/optimization/anchor_points_generator.py:AnchorPointsGenerator.get"]}
{"id": "C24", "title": "With de-duplication a single suggestion is never a known configuration", "statement": "With a duplicate manager, the point returned by the sequential evaluator is never an evaluated, pending or ignored configuration known to the manager, for any acquisition and any local optimizer result.", "quantifier": "all spaces, histories, acquisitions, optimizer results, random designs", "why_tests_cant": "must hold for any optimizer behaviour and history", "anchors": ["GPyOpt/optimization/optimizer.py:apply_optimizer", "GPyOpt/core/evaluators/sequential.py:Sequential.compute_batch"]}
{"id": "C25", "title": "The acquisition optimizer returns the best candidate", "statement": "AcquisitionOptimizer.optimize returns the first candidate with the smallest recomputed acquisition value among the locally optimised anchor points, and the returned value is the acquisition at the returned point.", "quantifier": "all candidate lists and acquisition functions", "why_tests_cant": "argmin over arbitrary candidate lists", "anchors": ["GPyOpt/optimization/acquisition_optimizer.py:AcquisitionOptimizer.optimize", "GPyOpt/optimization/optimizer.py:apply_optimizer"]}
{"id": "C26", "title": "De-duplicated batches contain distinct new points", "statement": "With a duplicate manager, the batches of the random and Thompson evaluators contain pairwise distinct configurations, none of which is known to the manager, and at least one row. With batch size >= 2 (random) or >= 1 (Thompson) they never exceed the requested size. A random batch of requested size 1 can exceed it: up to 6 points are returned.", "quantifier": "all batch sizes, histories, anchor points, optimizer results", "why_tests_cant": "an invariant of the fill loop for all anchor sequences", "anchors": ["GPyOpt/core/evaluators/base.py:SamplingBasedBatchEvaluator.compute_batch"]}
{"id": "C27", "title": "A random batch starts with the acquisition optimum", "statement": "The class documentation says the first element of a random batch is the acquisition optimum. Without de-duplication this holds. With de-duplication it holds whenever the optimum has a non-zero coordinate; the all-zero optimum is silently dropped.", "quantifier": "all batch sizes, optima and anchor points", "why_tests_cant": "depends on a truthiness test of the point that only the zero vector fails", "anchors": ["GPyOpt/core/evaluators/batch_random.py:RandomBatch", "GPyOpt/core/evaluators/base.py:SamplingBasedBatchEvaluator.compute_batch"]}
{"id": "C28", "title": "Batches without de-duplication have exactly the requested size", "statement": "Without a duplicate manager the sequential evaluator returns one row, the random, Thompson and local-penalization evaluators exactly batch_size >= 1 rows whenever at least that many anchor points are available. So do the suggestions of a whole object, and a run that returns has evaluated one such batch per iteration.", "quantifier": "all batch sizes and anchor sets", "why_tests_cant": "size arithmetic for every batch size", "anchors": ["GPyOpt/core/evaluators/batch_random.py:RandomBatch.compute_batch_without_duplicate_logic", "GPyOpt/core/evaluators/batch_thompson.py", "GPyOpt/core/evaluators/batch_local_penalization.py"]}
{"id": "C29", "title": "Local penalization penalises all earlier batch points, resets afterwards, and ignores de-duplication", "statement": "While choosing element k of a batch the acquisition is penalised around exactly the k-1 elements chosen before; after the batch the acquisition is un-penalised again. The duplicate manager is not consulted: even with de_duplication on, an evaluated configuration can be suggested.", "quantifier": "all batch sizes, acquisition optima, duplicate sets", "why_tests_cant": "a loop invariant over the batch", "anchors": ["GPyOpt/core/evaluators/batch_local_penalization.py:LocalPenalization.compute_batch"]}
{"id": "C30", "title": "X and Y stay aligned and append-only", "statement": "After any number of run_optimization calls that end without an exception, X and Y have the same number of rows, the rows present before the call are unchanged and come first, and each new row of Y is the objective at the same row of X.", "quantifier": "all histories: any sequence of runs, batch sizes, objectives, suggestion policies, clocks", "why_tests_cant": "an invariant over unbounded histories", "anchors": ["GPyOpt/core/bo.py:BO.run_optimization", "GPyOpt/core/bo.py:BO.evaluate_objective"]}
{"id": "C31", "title": "The objective is evaluated exactly once per suggested row, in order", "statement": "During a run without parallel fall-back, the sequence of objective calls is exactly the initial rows (when Y was missing) followed by the suggested rows, in order, each once.", "quantifier": "all runs", "why_tests_cant": "a trace property over all executions", "anchors": ["GPyOpt/core/bo.py:BO.run_optimization", "GPyOpt/core/task/objective.py:SingleObjective._eval_func"]}
{"id": "C32", "title": "run_optimization terminates within max_iter iterations and stops only for a documented reason", "statement": "With a finite max_iter the loop performs at most max_iter acquisitions and then stops; it performs fewer only if the time budget is exhausted, the model update hits a linear-algebra failure, or the last two rows are within eps. With max_time <= 0 no acquisition is made. None limits behave as documented.", "quantifier": "all limits, clocks, models, objectives", "why_tests_cant": "termination and a characterisation of all exits", "anchors": ["GPyOpt/core/bo.py:BO.run_optimization"]}
{"id": "C33", "title": "Reported optimum is the best evaluation", "statement": "After a run, fx_opt is the minimum of Y, x_opt is the first row of X attaining it, Y_best[i] is the minimum of Y[0..i], Y_best is non-increasing and ends at fx_opt.", "quantifier": "all histories of any length", "why_tests_cant": "an order property of all sequences", "anchors": ["GPyOpt/core/bo.py:BO._compute_results", "GPyOpt/util/general.py:best_value"]}
{"id": "C34", "title": "An exception in the objective leaves X and Y inconsistent", "statement": "Users expect to be able to catch an exception raised by their objective and go on. No data is lost (all earlier rows of X and Y remain), but X already contains the failed batch while Y does not: after the exception len(X) = len(Y) + batch, so the state violates the alignment every later call relies on.", "quantifier": "all runs and all points at which the objective raises", "why_tests_cant": "quantifies over every crash point", "anchors": ["GPyOpt/core/bo.py:BO.run_optimization", "GPyOpt/core/bo.py:BO.evaluate_objective"]}
{"id": "C35", "title": "The surrogate is refitted on all data every model_update_interval acquisitions", "statement": "At the start of each loop iteration, if the number of acquisitions so far in this run is a multiple of model_update_interval, the model is updated with all rows evaluated so far (encoded inputs, normalised outputs if requested); otherwise it is not updated. The parameter history has one row per loop iteration.", "quantifier": "all intervals, run lengths, batch sizes", "why_tests_cant": "a schedule property over unbounded runs", "anchors": ["GPyOpt/core/bo.py:BO._update_model"]}
{"id": "C36", "title": "maximize=True is minimisation of -f", "statement": "Optimising f with maximize=True produces the same trajectory as minimising -f, stores Y = -f(X), and reports fx_opt = - (maximum of f over the evaluated rows), attained at x_opt.", "quantifier": "all objectives and runs", "why_tests_cant": "an equivalence of two programs", "anchors": ["GPyOpt/methods/bayesian_optimization.py:BayesianOptimization._sign"]}
{"id": "C37", "title": "suggest_next_locations does not touch the data", "statement": "suggest_next_locations returns the same X and Y it started from, evaluates the objective nowhere, and resets the acquisition counter so that the model is always refitted on all current data before suggesting.", "quantifier": "all states and arguments", "why_tests_cant": "a frame property over all states", "anchors": ["GPyOpt/core/bo.py:BO.suggest_next_locations"]}
{"id": "C38", "title": "Constructor data requirements", "statement": "Without an objective, BayesianOptimization requires both X and Y and raises InvalidConfigError otherwise; run_optimization then raises InvalidConfigError. With an objective, after construction Y is the user's Y when both are given, and otherwise the objective at the rows of X (user-given or from the initial design).", "quantifier": "all combinations of f, X, Y", "why_tests_cant": "decision table over all inputs", "anchors": ["GPyOpt/methods/bayesian_optimization.py:BayesianOptimization._init_design_chooser", "GPyOpt/core/bo.py:BO.run_optimization"]}
{"id": "C39", "title": "Parallel evaluation returns the sequential result in the original order", "statement": "For a deterministic objective, every number of processes and every batch, every interleaving of the parent and the child processes is finite, and, if no row raises and the messages fit into the pipes, ends with the same values in the same row order as the sequential evaluation. If the processes cannot be started it falls back to the sequential evaluation. The documented fall-back for any other failure does not exist: if the objective raises in a child, or a message does not fit into its pipe, no interleaving lets the parent finish.", "quantifier": "all process counts n >= 1, batch sizes, objectives, interleavings of parent and children", "why_tests_cant": "quantifies over all schedules of concurrent processes; a test sees one", "anchors": ["GPyOpt/core/task/objective.py:SingleObjective._syncronous_batch_evaluation", "GPyOpt/core/task/objective.py:SingleObjective.evaluate"]}
{"id": "C40", "title": "num_cores controls the number of evaluation processes", "statement": "The documentation says num_cores is the number of cores used to evaluate the objective. In BayesianOptimization it has no effect: the objective always uses batch_size processes.", "quantifier": "all batch_size and num_cores", "why_tests_cant": "argument wiring; results do not depend on it so tests cannot see it", "anchors": ["GPyOpt/methods/bayesian_optimization.py:BayesianOptimization.__init__"]}
{"id": "C41", "title": "The evaluation-time cost model accumulates every observation and predicts positive costs", "statement": "After any sequence of update_cost_model calls with sequentially measured costs, the cost surrogate was last trained on exactly all inputs and the logarithms of all costs, in order; predicted costs are strictly positive and the cost gradient is the derivative of the predicted cost. Without a cost argument the cost is 1 with gradient 0, with a function as argument it is that function, after every history.", "quantifier": "all update histories, all surrogates", "why_tests_cant": "an invariant over histories", "anchors": ["GPyOpt/core/task/cost.py:CostModel"]}
{"id": "C42", "title": "cost_withGradients='evaluation_time' in BayesianOptimization", "statement": "Documented as: a GP on the evaluation time is used as cost. In BayesianOptimization the cost object is wrapped twice, so the time-based cost model is never trained; the acquisition consults an untrained model and fails.", "quantifier": "all histories", "why_tests_cant": "an invariant: no sequence of operations ever trains the model", "anchors": ["GPyOpt/methods/bayesian_optimization.py:BayesianOptimization.__init__", "GPyOpt/core/bo.py:BO.__init__", "GPyOpt/core/task/cost.py:CostModel.__init__"]}
{"id": "C43", "title": "Costs reported by parallel evaluation have the shape the cost model needs", "statement": "update_cost_model needs one log-cost row per input row. Sequential evaluation provides that for every batch; parallel evaluation provides an n x 1 array that is transposed into one row of n, so the shapes agree only for batches of one.", "quantifier": "all batch sizes", "why_tests_cant": "a shape property for every n", "anchors": ["GPyOpt/core/task/objective.py:SingleObjective._syncronous_batch_evaluation", "GPyOpt/core/task/cost.py:CostModel.update_cost_model"]}
{"id": "C44", "title": "normalize: zero mean, unit deviation, order preserving", "statement": "normalize(Y,'stats') has mean 0, and standard deviation 1 when Y is not constant (0 otherwise); normalize(Y,'maxmin') maps onto [-1,1] with both ends attained when Y is not constant, and to 0 otherwise. Both preserve the order of the entries, so the minimiser does not change. Unknown types raise ValueError.", "quantifier": "all non-empty vectors of reals", "why_tests_cant": "an algebraic law over all vectors", "anchors": ["GPyOpt/util/general.py:normalize"]}
{"id": "C45", "title": "merge_values is the product of the row sets", "statement": "For non-empty matrices, merge_values(A,B) has one row per pair (row of A, row of B), in lexicographic order of the pairs, each the concatenation; an empty argument is neutral. It is associative.", "quantifier": "all pairs (triples) of matrices", "why_tests_cant": "algebraic law", "anchors": ["GPyOpt/util/general.py:merge_values"]}
{"id": "C46", "title": "Expected improvement is the expected improvement", "statement": "For posterior mean m, deviation s (smaller ones count as 1e-10), incumbent fmin and jitter j, the EI acquisition equals the integral of max(fmin - j - y, 0) against the Gaussian density N(m, s^2); hence it is strictly positive, strictly decreasing in m and strictly increasing in s. The incumbent is the least posterior mean at the data, for each hyper-parameter sample separately if there are several.", "quantifier": "all real m, fmin, j and s >= 1e-10", "why_tests_cant": "an identity between an integral and a closed form, for all reals", "anchors": ["GPyOpt/acquisitions/EI.py:AcquisitionEI._compute_acq", "GPyOpt/util/general.py:get_quantiles"]}
{"id": "C47", "title": "Acquisition gradients are the derivatives of the acquisitions", "statement": "For EI, MPI and LCB, whenever m and s are differentiable at x with s(x) > 1e-10, the returned gradient is the derivative of the returned value.", "quantifier": "all differentiable mean and deviation functions, all points", "why_tests_cant": "calculus identity for all functions", "anchors": ["GPyOpt/acquisitions/EI.py", "GPyOpt/acquisitions/MPI.py", "GPyOpt/acquisitions/LCB.py"]}
{"id": "C48", "title": "Probability of improvement is a probability, monotone as expected", "statement": "The MPI acquisition lies strictly between 0 and 1, is the Gaussian probability of improving on fmin - jitter, decreases in m and (for m below the target) decreases in s, (for m above) increases in s.", "quantifier": "all reals m, fmin, jitter, s >= 1e-10", "why_tests_cant": "for all reals", "anchors": ["GPyOpt/acquisitions/MPI.py:AcquisitionMPI._compute_acq"]}
{"id": "C49", "title": "Integrated acquisitions average the single-model ones", "statement": "The *_MCMC acquisition over hyper-parameter samples equals the average of the plain acquisition over the samples. True for LCB and MPI. False for EI: the code adds the jitter where the plain EI subtracts it, so its value differs by 2*jitter*Phi and its gradient is not the derivative of its value when jitter is non-zero.", "quantifier": "all samples, all reals", "why_tests_cant": "an equality over all sample lists", "anchors": ["GPyOpt/acquisitions/EI_mcmc.py", "GPyOpt/acquisitions/MPI_mcmc.py", "GPyOpt/acquisitions/LCB_mcmc.py"]}
{"id": "C50", "title": "Cost weighting and constraint masking of acquisitions", "statement": "acquisition_function(x) is minus the acquisition divided by the cost at feasible points and 0 at infeasible ones; acquisition_function_withGradients returns the same value and, at points whose neighbourhood is feasible, its derivative; at feasible points on the edge of the feasible region the value jumps and has no derivative.", "quantifier": "all acquisitions, positive costs, constraints, points", "why_tests_cant": "calculus identity for all functions", "anchors": ["GPyOpt/acquisitions/base.py:AcquisitionBase"]}
{"id": "C51", "title": "A feasible candidate is preferred to an infeasible one", "statement": "With EI or MPI, if at least one optimised candidate satisfies the constraints then the suggestion does. With LCB this is false: where the confidence bound is positive an infeasible candidate (value 0) beats every feasible one. On spaces with a categorical variable of a single category the mask itself is wrong: the constraints are evaluated at the encoded row.", "quantifier": "all models, constraints, candidates", "why_tests_cant": "relies on the sign of the acquisition for all posteriors", "anchors": ["GPyOpt/acquisitions/base.py:AcquisitionBase.acquisition_function", "GPyOpt/optimization/acquisition_optimizer.py:AcquisitionOptimizer.optimize"]}
{"id": "C52", "title": "Suggestions satisfy the constraints", "statement": "Users expect suggested points to satisfy the constraints. In general false even with EI: rounding after the local optimisation is not followed by a feasibility check and the anchor point is not used as a fall-back, so all candidates and hence the suggestion can be infeasible although the anchors were feasible. True on continuous spaces without context if the local optimizer does not end at a worse point than it started from.", "quantifier": "all constrained problems, local optimizer results", "why_tests_cant": "depends on the interplay of rounding and constraints", "anchors": ["GPyOpt/optimization/optimizer.py:apply_optimizer"]}
{"id": "C53", "title": "Local penalization lowers the acquisition near batch points; its gradient", "statement": "Each batch point x0 adds minus the log of the probability that a Gaussian with mean m(x0) - Min is at most L times the distance to x0 (its variance is the predicted deviation), so the penalised acquisition is never better than the un-penalised one and more batch points make it worse. Without batch points candidates are ranked as by the wrapped acquisition: always for expected improvement and probability of improvement, and for the confidence bound whenever two values differ by at least 1e-16 or are below 40 (at 40 the transform drops by about 4e-18). Without batch points the returned gradient is the derivative of the penalised value for the softplus transform (below 40) and up to the factor f/(f+1e-50) for the logarithm; with a batch point it is not, because the direction factor of the distance is missing.", "quantifier": "all acquisitions, batch points, locations", "why_tests_cant": "for all reals", "anchors": ["GPyOpt/acquisitions/LP.py:AcquisitionLP"]}
{"id": "C54", "title": "Entropy search probabilities are normalised", "statement": "After re-normalisation the probabilities exp(logP) of the representer points are positive and sum to 1; ratios of the weights computed point by point are kept, a weight whose logarithm is -inf counts as exp(-500).", "quantifier": "all vectors of log-weights", "why_tests_cant": "for all reals", "anchors": ["GPyOpt/util/epmgp.py:joint_min", "GPyOpt/acquisitions/ES.py:AcquisitionEntropySearch._compute_acq"]}
{"id": "C55", "title": "Predicted deviations are bounded away from zero and consistent with their gradient", "statement": "GPModel.predict and predict_withGradients return deviations >= 1e-5 for any surrogate; when the variance exceeds 1e-10 the deviation is its square root and the returned deviation gradient is the derivative of the deviation.", "quantifier": "all surrogates and points", "why_tests_cant": "for all surrogates", "anchors": ["GPyOpt/models/gpmodel.py:GPModel.predict", "GPyOpt/models/gpmodel.py:GPModel.predict_withGradients"]}
{"id": "C56", "title": "GP_MCMC keeps exactly n_samples samples and restores its parameters", "statement": "After every update the model holds exactly n_samples hyper-parameter samples: those at positions n_burnin, n_burnin+subsample_interval, ...; predict, predict_withGradients and get_fmin return one entry per sample and leave the model parameters as they were.", "quantifier": "all n_samples, n_burnin, subsample_interval >= 1", "why_tests_cant": "slice arithmetic for all parameters", "anchors": ["GPyOpt/models/gpmodel.py:GPModel_MCMC"]}
{"id": "C57", "title": "predict_covariance returns the posterior covariance", "statement": "Documented as the covariance matrix at X. True exactly when every entry is at least 1e-10: all smaller entries, in particular all negative covariances, are replaced by 1e-10. Symmetry is preserved.", "quantifier": "all covariance matrices", "why_tests_cant": "depends on the sign of off-diagonal entries", "anchors": ["GPyOpt/models/gpmodel.py:GPModel.predict_covariance", "GPyOpt/models/gpmodel.py:GPModel._predict"]}
{"id": "C58", "title": "Input warping applies to the numerical columns only", "statement": "Documented: warping applies only to continuous and discrete variables. The warping indices are exactly the model columns of those variables when no categorical variable precedes one of them; otherwise they can name a one-hot column of a categorical variable.", "quantifier": "all spaces", "why_tests_cant": "index arithmetic for every mix of variables", "anchors": ["GPyOpt/models/input_warped_gpmodel.py:InputWarpedGPModel.__init__"]}
{"id": "C59", "title": "Configuration files override defaults key by key", "statement": "For every path of keys, the merged configuration has the value of the user's file if the file sets a (non-dictionary) value there, and the default otherwise; no default key disappears unless overridden.", "quantifier": "all nested configurations", "why_tests_cant": "a law for all trees", "anchors": ["GPyOpt/interface/config_parser.py:update_config"]}
{"id": "C60", "title": "Output savers fire on schedule", "statement": "A saver with interval n > 0 fires exactly at every n-th non-final append_iter call and not at final ones; a saver with interval -1 fires exactly at the final calls; each firing sees all data appended so far. Intervals that are not whole numbers are accepted, but such a saver never fires.", "quantifier": "all sequences of append_iter calls, all intervals", "why_tests_cant": "a schedule property over unbounded histories", "anchors": ["GPyOpt/interface/output.py:OutputEng.append_iter"]}
{"id": "C61", "title": "The configuration-file driver runs", "statement": "gpyopt.py config.json should run the optimization. It never does: building the objective passes an argument the constructor does not take, so BODriver.run raises TypeError for every configuration that reaches that point; a file without a design space is refused with AssertionError. The script always ends in an exception, without a file in IndexError.", "quantifier": "all configurations and objectives", "why_tests_cant": "an impossibility claim over all configurations", "anchors": ["GPyOpt/interface/driver.py:BODriver._get_obj"]}
{"id": "C62", "title": "Every documented option value selects a component", "statement": "Each documented acquisition_type, model_type and evaluator_type yields a component. False for the documented model types 'warperdGP' and 'InputWarpedGP', and for evaluators with batch sizes below 1: the selector silently returns None.", "quantifier": "all option strings and batch sizes", "why_tests_cant": "classification of all strings", "anchors": ["GPyOpt/util/arguments_manager.py:ArgumentsManager"]}
{"id": "C63", "title": "Reports can be saved for every kind of optimization", "statement": "run_optimization(report_file=...) writes a report. For ModularBayesianOptimization it always raises AttributeError; for bandit spaces with arms of length >= 2 it raises IndexError; before the first run save_report raises AttributeError; otherwise it succeeds and shows the optimum, the number of samples and the settings. The lines about cost and constraints are the same whatever cost and constraints were given.", "quantifier": "all states", "why_tests_cant": "attribute availability over all construction paths", "anchors": ["GPyOpt/core/bo.py:BO.save_report", "GPyOpt/methods/modular_bayesian_optimization.py"]}
{"id": "C64", "title": "Saved evaluations are the evaluations", "statement": "save_evaluations writes a header and one row per evaluation: iteration number, Y and the coordinates of X, in order; reading the table back gives X and Y. After an exception of the objective, X has more rows than Y and save_evaluations raises ValueError.", "quantifier": "all histories", "why_tests_cant": "round-trip for all tables", "anchors": ["GPyOpt/core/bo.py:BO.save_evaluations"]}
{"id": "C65", "title": "Benchmark functions attain their documented minimum", "statement": "For rosenbrock, powers, goldstein, alpine1 and ackley the documented fmin is the global minimum and is attained at the documented point; for branin, mccormick (on its box), sixhumpcamel, eggholder (on its box) and alpine2 (on its box) it is, up to the digits given. For beale, dropwave and cosines the documented values are wrong, and the value of forrester at its documented point is more than 0.2 above the minimum.", "quantifier": "all points of the plane / of R^d", "why_tests_cant": "a global minimum over a continuum", "anchors": ["GPyOpt/objective_examples/experiments2d.py", "GPyOpt/objective_examples/experimentsNd.py"]}
{"id": "C66", "title": "Derivatives of the entropy-search log-probabilities", "statement": "If the raw log-weights have the given first derivatives then the re-normalised log-probabilities have the returned first derivatives. The returned second derivatives are wrong in general: entry (i, j) is right exactly when the mean derivative in direction j is 0 or equals the one in direction i, because the outer product Zm Zm' is computed as an elementwise square.", "quantifier": "all differentiable families of log-weights, any number of points", "why_tests_cant": "derivatives for all reals; a defect that only shows in off-diagonal entries", "anchors": ["GPyOpt/util/epmgp.py:joint_min"]}
{"id": "C67", "title": "Expectation propagation keeps a consistent Gaussian", "statement": "Each message update turns the marginal N(M, V) into that Gaussian times the change of the message (in exact arithmetic), keeps V symmetric and the message precisions non-negative through any number of sweeps; the marginal after any number of sweeps is the prior Gaussian times all messages; unless a message falls under the single precision epsilon an update gives the marginal the mean and variance of the Gaussian without this message restricted to the right side; the ratio used between -6 and 6 is the normal density over the normal distribution function.", "quantifier": "all means, symmetric covariances, messages, numbers of sweeps", "why_tests_cant": "an invariant over unboundedly many updates", "anchors": ["GPyOpt/util/epmgp.py:lt_factor", "GPyOpt/util/epmgp.py:min_faktor", "GPyOpt/util/epmgp.py:log_relative_gauss"]}
{"id": "C68", "title": "Derivatives of log Z", "statement": "With the messages fixed, the first and second derivatives in the means and the first derivative in the covariance returned with log Z are its derivatives; they reproduce the mean and the covariance of the marginal the sweeps ended with.", "quantifier": "all means, covariances, messages, any linear solver result", "why_tests_cant": "derivatives for all reals and all sizes", "anchors": ["GPyOpt/util/epmgp.py:min_faktor"]}
{"id": "C69", "title": "Entropy-search value", "statement": "The packed covariance derivatives and the packed covariance changes are listed in the same order, so their product is half the double sum; a predicted log-probability is the second order expansion in the stored derivatives, with the square of the sample replaced by its expectation 1; the value is bounded below independently of the location; at a location uncorrelated with all representer points it equals the current value whatever the samples are.", "quantifier": "all numbers of representer points and samples, all covariances", "why_tests_cant": "index arithmetic for all sizes; bounds for all reals", "anchors": ["GPyOpt/acquisitions/ES.py:AcquisitionEntropySearch._compute_acq", "GPyOpt/util/epmgp.py:min_faktor"]}
{"id": "C70", "title": "Entropy search reflects the current model", "statement": "Users expect the acquisition to use the model's current state. The representer points and their probabilities are computed at the first evaluation only: every later evaluation, after any number of model updates, still uses those of the first one.", "quantifier": "all histories of evaluations and model updates", "why_tests_cant": "a staleness property over unbounded histories", "anchors": ["GPyOpt/acquisitions/ES.py:AcquisitionEntropySearch._update_parameters", "GPyOpt/acquisitions/ES.py:AcquisitionEntropySearch._required_parameters_initialized"]}
{"id": "C71", "title": "Representer points come from the domain box", "statement": "The default proposal density is the expected improvement inside the bounds and zero outside; exactly the sampled points of positive density are kept, each as often as it was sampled; a point of infinite density raises RuntimeError.", "quantifier": "all bounds, points and samples", "why_tests_cant": "for all reals and all sample lists", "anchors": ["GPyOpt/acquisitions/ES.py:AcquisitionEntropySearch.__init__", "GPyOpt/acquisitions/ES.py:AcquisitionEntropySearch._update_parameters"]}
{"id": "C72", "title": "A GP surrogate follows its settings and the data", "statement": "After any number of updates the GP behind a GPModel was built once, with the kernel, sparsity, mean function and noise setting the user chose, holds exactly the latest data and was optimised once per update (never if max_iters is 0). The noise variance of a sparse model is not the user's.", "quantifier": "all settings, all sequences of updates", "why_tests_cant": "an invariant over unbounded update sequences", "anchors": ["GPyOpt/models/gpmodel.py:GPModel.updateModel", "GPyOpt/models/gpmodel.py:GPModel._create_model"]}
{"id": "C73", "title": "A copy of a surrogate is an equivalent surrogate", "statement": "GPModel.copy returns a model with the data, kernel and settings of the original. True exactly for models that are neither sparse nor have a mean function; copying a GPModel_MCMC always raises TypeError.", "quantifier": "all settings, all histories of the original", "why_tests_cant": "depends on every setting", "anchors": ["GPyOpt/models/gpmodel.py:GPModel.copy", "GPyOpt/models/gpmodel.py:GPModel_MCMC.copy"]}
{"id": "C74", "title": "Every surrogate type can be optimised", "statement": "Choosing model_type RF or warpedGP should work like GP. False: these classes have no get_model_parameters, so no run or suggestion ever gets past the first model update and nothing is ever acquired.", "quantifier": "all histories of runs and suggestions, all objectives", "why_tests_cant": "an impossibility claim over all histories", "anchors": ["GPyOpt/core/bo.py:BO._save_model_parameter_values", "GPyOpt/models/rfmodel.py:RFModel", "GPyOpt/models/warpedgpmodel.py:WarpedGPModel"]}
{"id": "C75", "title": "The log shows the best value so far", "statement": "Every line the csv logger writes has the last iteration and time, the smallest objective value appended so far and the first point that has it; the objective column never increases. The file has a headline and one line for each time the logger is due; a logger whose file cannot be opened writes and raises nothing.", "quantifier": "all sequences of appended data", "why_tests_cant": "for all histories", "anchors": ["GPyOpt/interface/output.py:Logger.save_data"]}
{"id": "C76", "title": "Options reach the component they configure", "statement": "Every keyword option of BayesianOptimization (kernel, noise_var, max_iters, optimize_restarts, num_inducing, ARD, n_samples, step_size, acquisition_jitter, acquisition_weight, ...) is passed to the constructor parameter of that meaning, with its default otherwise. False for verbosity_model, which never has an effect, and for every option of the model types RF and warpedGP.", "quantifier": "all sets of options, all model and acquisition types", "why_tests_cant": "positional argument lists of ten arguments: a permutation only shows for particular values", "anchors": ["GPyOpt/util/arguments_manager.py:ArgumentsManager.model_creator", "GPyOpt/util/arguments_manager.py:ArgumentsManager.acquisition_creator", "GPyOpt/methods/bayesian_optimization.py:BayesianOptimization.__init__"]}
{"id": "C77", "title": "Benchmark functions return one value per point", "statement": "Calling a benchmark function on n points returns n rows of one number, the value at that point plus that point's noise. With noise, alpine1 instead returns an n by n matrix.", "quantifier": "all inputs, all noise vectors", "why_tests_cant": "a shape defect that shows only with noise and more than one point", "anchors": ["GPyOpt/objective_examples/experiments2d.py", "GPyOpt/objective_examples/experimentsNd.py", "GPyOpt/objective_examples/experiments1d.py"]}
{"id": "C78", "title": "Files written at the end of a run", "statement": "save_models writes one row per modelled iteration under the parameter names, with the iteration number in front. run_optimization writes the report, then the evaluations, then the model parameters, and nothing after the first one that fails. Saving the model parameters of a run that acquired nothing fails.", "quantifier": "all parameter histories, all sets of requested files, all runs", "why_tests_cant": "an ordering claim under every possible failure", "anchors": ["GPyOpt/core/bo.py:BO.save_models", "GPyOpt/core/bo.py:BO.run_optimization"]}
{"id": "C79", "title": "Everything a run evaluates is a configuration of the design space", "statement": "Whatever sequence of run_optimization and suggest_next_locations calls is made, with exceptions caught in between: if the first rows of X are configurations of the design space, all later rows are, and the rows acquired under a context have its values.", "quantifier": "all spaces, evaluators, acquisitions, local solvers, random generators, objectives and histories of calls", "why_tests_cant": "the property of the whole pipeline over every history; a test sees a few runs of one configuration", "anchors": ["GPyOpt/core/bo.py:BO.run_optimization", "GPyOpt/core/bo.py:BO.suggest_next_locations", "GPyOpt/core/evaluators/base.py:SamplingBasedBatchEvaluator", "GPyOpt/optimization/optimizer.py:apply_optimizer"]}
{"id": "C80", "title": "With de_duplication nothing is evaluated twice", "statement": "With de_duplication=True no configuration appears twice in X however many runs are made (unless it was twice in the initial data), for the sequential, random and thompson_sampling evaluators. False for local_penalization.", "quantifier": "all histories of calls, spaces, acquisitions, solvers and random generators", "why_tests_cant": "a repeat may show only after thousands of iterations", "anchors": ["GPyOpt/core/bo.py:BO._compute_next_evaluations", "GPyOpt/util/duplicate_manager.py:DuplicateManager", "GPyOpt/core/evaluators/batch_local_penalization.py:LocalPenalization"]}
{"id": "C81", "title": "A finite design space is explored at most once", "statement": "On a space without continuous variables and with de_duplication, the number of evaluated rows never exceeds the number of configurations, a run that returns has made at most as many iterations as configurations were left, and once all configurations matching the context are evaluated no suggestion is returned.", "quantifier": "all finite spaces, all histories of calls", "why_tests_cant": "a counting bound over all histories", "anchors": ["GPyOpt/core/bo.py:BO.run_optimization", "GPyOpt/util/duplicate_manager.py:DuplicateManager", "GPyOpt/optimization/anchor_points_generator.py:AnchorPointsGenerator.get"]}
{"id": "C82", "title": "Non-finite objective values in the report", "statement": "After a run, fx_opt is the least objective value and x_opt the first point that has it, with infinities ordered as usual; in particular +inf may be returned for failed evaluations and the report is then the best finite value. A NaN takes over: x_opt is the point of the first NaN, fx_opt is NaN and the convergence curve is NaN from that evaluation on.", "quantifier": "all lists of evaluated points and objective values that may contain NaN and infinities", "why_tests_cant": "NaN and infinities can occur at any position and in any number; tests of the loop use well-behaved functions", "anchors": ["GPyOpt/core/bo.py:_compute_results", "GPyOpt/util/general.py:best_value"]}
{"id": "C83", "title": "Non-finite objective values under normalize_Y", "statement": "With normalize_Y a single objective value that is NaN or infinite destroys the data of the model: under 'stats' no normalised value is finite; under 'maxmin' every normalised value is -1 or NaN, and all are NaN when a value is NaN or -inf. On finite data normalisation is the one of C44.", "quantifier": "all vectors of objective values with NaN and infinities, both normalisation types", "why_tests_cant": "the effect depends on which non-finite values occur and where; the unit tests use finite arrays only", "anchors": ["GPyOpt/util/general.py:normalize", "GPyOpt/core/bo.py:_update_model"]}
{"id": "C84", "title": "NaN acquisition values among the candidates", "statement": "The acquisition optimizer returns the candidate with the least acquisition value and passes over candidates whose value is NaN, provided the first candidate has a value that is a number. If the first candidate's value is NaN it is returned whatever the others are.", "quantifier": "all lists of candidates and values, NaN and infinities included", "why_tests_cant": "depends on the position of a NaN in a list of values computed by the model", "anchors": ["GPyOpt/optimization/acquisition_optimizer.py:AcquisitionOptimizer.optimize"]}
{"id": "C85", "title": "Local optimizers", "statement": "choose_optimizer(name, bounds).optimize(x0, f, df, f_df) returns a point of the box together with f at that point; 'lbfgs' never returns a larger value than f(x0), and falls back to (x0, f(x0)) when scipy reports an abnormal line search; only the gradient of f_df is used. Passing a gradient df without f_df works. Unknown names, one-dimensional problems for CMA and missing libraries are reported as exceptions.", "quantifier": "all functions, gradients, starts, boxes and all behaviours of the external solvers", "why_tests_cant": "the behaviour of the external solver is arbitrary, in particular its failures; DIRECT and cma are optional libraries", "anchors": ["GPyOpt/optimization/optimizer.py:OptLbfgs.optimize", "GPyOpt/optimization/optimizer.py:OptDirect.optimize", "GPyOpt/optimization/optimizer.py:OptCma.optimize", "GPyOpt/optimization/optimizer.py:choose_optimizer", "GPyOpt/optimization/optimizer.py:apply_optimizer"]}
{"id": "C86", "title": "Entropy search and the kinds of variables", "statement": "AcquisitionEntropySearch can be evaluated at the model rows of any design space. This holds for spaces of continuous and discrete variables only: with a categorical or bandit variable every evaluation raises ValueError (or the constructor IndexError), so no suggestion is ever made.", "quantifier": "all design spaces, contexts, candidate generators and local optimizers", "why_tests_cant": "ranges over all spaces and all suggestions; the unit tests use one-dimensional continuous spaces", "anchors": ["GPyOpt/acquisitions/ES.py:AcquisitionEntropySearch._compute_acq", "GPyOpt/core/task/space.py:Design_space.input_dim"]}
{"id": "C87", "title": "Entropy search is exact for two points", "statement": "With two representer points whose difference has normalised mean z between -6 and 6, the returned probability that a point is the lower one is the Gaussian probability of that event (with 1e-25 added to the variance), unless one of the messages falls under the single precision epsilon; beyond 6 the ratio of the two probabilities is exp(-500).", "quantifier": "all means and positive definite covariances of two points", "why_tests_cant": "an identity between a limit of an iteration and an integral, for all reals", "anchors": ["GPyOpt/util/epmgp.py:joint_min", "GPyOpt/util/epmgp.py:min_faktor", "GPyOpt/util/epmgp.py:lt_factor"]}
{"id": "C88", "title": "A run can be paused and resumed", "statement": "When run_optimization with max_iter = a + b returns normally, then calling it with max_iter = a and again with max_iter = b on the same object gives the same evaluated points, values, best-so-far curve, best point and order of objective calls, provided the surrogate is updated in every iteration and refitting it to the same data changes nothing. With model_update_interval > 1, or with a surrogate that changes when refitted, the pause changes the points.", "quantifier": "all numbers of iterations a and b, all objectives (also with side effects), surrogates, evaluators, contexts, eps, and starting data", "why_tests_cant": "a test compares one split of one run with one seed; the claim is about every split point of every run", "anchors": ["GPyOpt/core/bo.py:BO.run_optimization", "GPyOpt/core/bo.py:BO._update_model"]}
{"id": "C89", "title": "Evaluating the objective externally is the same as run_optimization", "statement": "Building a new BayesianOptimization with f=None from all data so far, asking suggest_next_locations, evaluating the suggestion and appending the result, as many times as run_optimization made iterations, calls the objective on the same points in the same order and ends with the same X and Y. This needs one evaluation process, an update of the surrogate per iteration and a surrogate that depends on the data only; with model_update_interval = 2 the two differ.", "quantifier": "all runs that return normally, of any length, with any stop condition, objective, surrogate, evaluator, context and starting data", "why_tests_cant": "the example notebook and the tests compare a few steps on one function; the claim is about every round of every run", "anchors": ["GPyOpt/core/bo.py:BO.suggest_next_locations", "GPyOpt/core/bo.py:BO.run_optimization", "manual/GPyOpt_external_objective_evaluation.ipynb:cell 8"]}
{"id": "C90", "title": "Asynchronous evaluation with pending points", "statement": "With de_duplication, when suggestions are requested while earlier ones are being evaluated and those are passed as pending_X, no point other than the zero vector is ever suggested twice or equal to a starting point; no suggestion is lost and each finished point has one value; all suggestions are configurations of the design space; points passed as ignored_X are not suggested. The zero vector can be suggested again while it is pending.", "quantifier": "all interleavings of requests and returning results, of any length, with any contexts, values, surrogates and the sequential, random and Thompson sampling evaluators", "why_tests_cant": "the number of interleavings is unbounded, and the exception concerns one point of the domain", "anchors": ["GPyOpt/core/bo.py:BO.suggest_next_locations", "GPyOpt/util/duplicate_manager.py:DuplicateManager.__init__", "GPyOpt/methods/bayesian_optimization.py:BayesianOptimization.__init__"]}
{"id": "C91", "title": "The Lipschitz constant used by local penalization", "statement": "The estimate always exists and is at least 1e-7, whatever the surrogate's gradients and the solver return. It is at least the length of the gradient of the predictive mean at every random sample and every data point when the solver does not end above its start, at most the largest slope in the box or 10, and a Lipschitz constant of the predictive mean on the box when the solver finds the global minimum; with a solver that finds only a local minimum it need not be one.", "quantifier": "all surrogates (gradient fields) in any dimension, all boxes, random draws, data sets and solver results", "why_tests_cant": "the claim is about all surfaces and all samples; a test evaluates one surrogate with one seed", "anchors": ["GPyOpt/core/evaluators/batch_local_penalization.py:estimate_L", "GPyOpt/util/general.py:samples_multidimensional_uniform"]}
{"id": "C92", "title": "Predictions of the random forest", "statement": "For every row the predicted mean is the average over the trees, lies between the smallest and the largest tree prediction and does not depend on the order of the trees; the predicted deviation is the standard deviation over the trees, is at most half the range of their predictions and is 0 exactly when all trees agree; the reported current minimum is the smallest predicted mean at the data points.", "quantifier": "all non-empty forests of arbitrary trees, all inputs and data sets of any size", "why_tests_cant": "quantifies over all forests and inputs", "anchors": ["GPyOpt/models/rfmodel.py:RFModel.predict", "GPyOpt/models/rfmodel.py:RFModel.get_fmin"]}
{"id": "C93", "title": "Initial designs stay in the domain in floating point", "statement": "With coordinates rounded to double precision, every coordinate of a random, Latin or Sobol design is a number inside its interval, whatever is drawn from [0, 1), and a grid starts at the lower bound, never decreases and ends at the upper bound. Conditions: the width of the interval does not overflow (a random design raises OverflowError, a Latin design contains infinities), and, for grids, it is not subnormal (the grid can then leave the interval).", "quantifier": "all intervals of doubles, all draws and sizes", "why_tests_cant": "rounding errors appear for rare combinations of bounds and draws; a test tries a handful", "anchors": ["GPyOpt/experiment_design/random_design.py:samples_multidimensional_uniform", "GPyOpt/experiment_design/latin_design.py:LatinDesign.get_samples", "GPyOpt/experiment_design/sobol_design.py:SobolDesign.get_samples", "GPyOpt/experiment_design/grid_design.py:multigrid"]}
{"id": "C94", "title": "round_optimum in floating point", "statement": "In double precision, rounding a continuous coordinate gives exactly the projection onto the interval, a discrete one always gives a value of the domain, keeps values of the domain and gives the nearest one up to a relative error of 2^-51, a categorical block becomes 1 at its first greatest entry, and a bandit block always becomes an arm and keeps an arm up to 2^-500. Not more: NaN stays NaN, the discrete value need not be exactly the nearest, arms with tiny differences are confused.", "quantifier": "all doubles including, where said, NaN and infinities; all domains of doubles", "why_tests_cant": "quantifies over all doubles", "anchors": ["GPyOpt/core/task/variables.py:ContinuousVariable.round", "GPyOpt/core/task/variables.py:DiscreteVariable.round", "GPyOpt/core/task/variables.py:CategoricalVariable.round", "GPyOpt/core/task/variables.py:BanditVariable.round"]}
{"id": "C95", "title": "normalize in floating point", "statement": "In double precision 'maxmin' maps every finite data set without overflowing differences into [-1, 1], the least values to exactly -1 and the greatest to exactly 1 (all to 0 when they are equal), and both normalisations never reverse the order of two values, whatever mean and deviation are computed. Different values can become equal.", "quantifier": "all vectors of doubles of any length", "why_tests_cant": "quantifies over all vectors of doubles", "anchors": ["GPyOpt/util/general.py:normalize"]}
{"id": "C96", "title": "An objective that modifies its argument", "statement": "A run on an object that has values for its rows does not notice that the objective writes to the array it is given: evaluations, values, report and surrogate are those of an objective with the same values that writes nothing, and no array that existed before is changed. The initial rows are not protected: in one process the user's own array and the recorded evaluations then hold what the objective left, so the report can name a point that was never evaluated. With forked processes or an objective that writes nothing they are unchanged.", "quantifier": "all objectives, all runs, all heaps", "why_tests_cant": "a test uses objectives without side effects; the statement is about every pattern of in-place writes over a whole run", "anchors": ["GPyOpt/core/task/objective.py:SingleObjective._eval_func", "GPyOpt/core/bo.py:BO.run_optimization", "GPyOpt/methods/bayesian_optimization.py:BayesianOptimization._init_design_chooser"]}
{"id": "C97", "title": "Arrays returned to the user are not shared", "statement": "Whatever the user writes into arrays returned by suggest_next_locations and get_evaluations, and whenever, all later results are those of the same calls without the writes. After a run with an iteration this also holds for the array X the object was built with. Before, writing to that X changes the recorded evaluations, and writing to the reported x_opt always does.", "quantifier": "all interleavings of runs, suggestions, get_evaluations and writes", "why_tests_cant": "quantifies over all interleavings of calls and in-place writes", "anchors": ["GPyOpt/core/bo.py:BO.get_evaluations", "GPyOpt/core/bo.py:BO.suggest_next_locations", "GPyOpt/core/bo.py:BO._compute_results"]}
{"id": "C98", "title": "What a design space answers about itself", "statement": "For a space without bandit variables the continuous and discrete dimensions reported are exactly the positions, in increasing order, of its continuous and of its discrete variables, and the input dimension is their number together. The discrete grid contains every combination of one value per discrete variable (categorical ones are not part of it), each once if no domain repeats a value. The arms reported are those of the bandit variables in order. The subspace for some model columns keeps, in order, exactly the variables whose first column is among them. A list of bounds in the style of old versions becomes the space of continuous variables var_1, var_2, ... with these bounds. For a bandit whose arms have several coordinates the questions about dimensions raise IndexError.", "quantifier": "all spaces the constructor accepts, all lists of columns, all lists of bounds", "why_tests_cant": "quantifies over every mix, order and repetition of variables; the positions depend on all earlier variables", "anchors": ["GPyOpt/core/task/space.py:Design_space.get_continuous_dims", "GPyOpt/core/task/space.py:Design_space.get_discrete_dims", "GPyOpt/core/task/space.py:Design_space.get_discrete_grid", "GPyOpt/core/task/space.py:Design_space.get_subspace", "GPyOpt/core/task/space.py:bounds_to_space"]}
{"id": "C99", "title": "What the convergence plot shows, and that plotting leaves the data alone", "statement": "After every run that ends without an exception plot_convergence draws, over the number of the evaluation, the distance between each two consecutive locations and the smallest value observed up to each evaluation, a curve that never rises. Before a run it raises AttributeError; it raises ValueError exactly when evaluations were added that the reported best values do not cover, which happens after a run that ended with an exception. plot_acquisition evaluates nothing and leaves observations, reported optimum and cost model as they are; but it makes a proposal to mark it, which resets the record of the run: the report written afterwards says that the optimisation was not completed. With three or more columns it draws nothing.", "quantifier": "all optimisers, objectives, histories and stopping conditions", "why_tests_cant": "quantifies over every history before the plot; the effect on the run record shows only in a report written later", "anchors": ["GPyOpt/core/bo.py:BO.plot_convergence", "GPyOpt/core/bo.py:BO.plot_acquisition", "GPyOpt/plotting/plots_bo.py:plot_convergence"]}
{"id": "C100", "title": "What the acquisition plot shows", "statement": "The drawn acquisition is scaled to run from 0 at its worst to 1 at its best point and keeps all ratios of differences; if it is constant on the grid every height is not a number. In one dimension the grid starts at the lower bound and goes up to the upper one in steps of a thousandth, and the curve, drawn at the bottom of the figure, lies inside the limits of the axis exactly when the lower end of the model's band is not above zero; if that is more than a tenth of the height of the band above zero, no point of the curve is visible. In two dimensions entry (i, j) of the drawn matrix belongs to column i of the second and j of the first variable's grid of 200 values.", "quantifier": "all acquisitions, bounds and model predictions", "why_tests_cant": "quantifies over all real valued acquisitions and predictions; whether the curve is visible depends on the scale of the objective", "anchors": ["GPyOpt/plotting/plots_bo.py:plot_acquisition"]}
{"id": "C101", "title": "A design space read from a configuration", "statement": "Reading a configuration whose domains and dimensionalities are strings gives the space, or the exception, that the same description in values gives; an empty list of constraints means no constraints. The dimensionality and the name, optional in a description, are required in a configuration. Reading changes the configuration that was passed: reading the same one again raises ValueError, and after a mistake in a later variable has been reported, the corrected configuration raises ValueError as well.", "quantifier": "all configurations, all results of literal_eval and int", "why_tests_cant": "quantifies over all lists of variables and over two calls in a row", "anchors": ["GPyOpt/core/task/space.py:Design_space.fromConfig"]}
{"id": "C102", "title": "The helpers exported for a user's own loop", "statement": "best_guess returns for each row the smallest value of the function over the rows up to it, best_value the running minimum for sign 1 and the running maximum for any other. reshape turns a point given as a vector into a matrix with one row and leaves matrices with the right number of columns alone; but several points of a one-dimensional space stay a vector, and d points with one coordinate are taken for one point with d. get_moments returns deviations whose squares are the predicted variances (zero for negative ones) and the smallest mean at the data; get_d_moments the derivatives of these deviations where the variance is positive. evaluate_function repeats the value of a function in as many columns as the inputs have.", "quantifier": "all functions, inputs and model predictions", "why_tests_cant": "quantifies over all real valued functions, lists and shapes; derivatives are limits", "anchors": ["GPyOpt/util/general.py:best_guess", "GPyOpt/util/general.py:best_value", "GPyOpt/util/general.py:reshape", "GPyOpt/util/general.py:get_moments", "GPyOpt/util/general.py:get_d_moments", "GPyOpt/util/general.py:evaluate_function"]}
{"id": "C103", "title": "The acquisition integrated over hyper-parameter samples", "statement": "compute_integrated_acquisition returns the average of the acquisition over the samples of the hyper-parameters, and the gradient returned with it is the gradient of that average; afterwards the kernel has the parameters of the last sample instead of those it had. The MCMC model of this library lacks the attribute that the function reads, so with it the function always raises AttributeError; samples longer than the kernel, as those that include the noise, raise ValueError.", "quantifier": "all acquisitions, samples and kernels", "why_tests_cant": "quantifies over any number of samples and all differentiable acquisitions", "anchors": ["GPyOpt/util/general.py:compute_integrated_acquisition", "GPyOpt/util/general.py:compute_integrated_acquisition_withGradients"]}
{"id": "C104", "title": "Files written and read by an experiment", "statement": "Within one experiment two outputs that have no file name of their own write to the same file only if they have the same name and type and were created in the same second; two experiments can share a file, since names are joined with underscores. load_objective returns the function of the given file that has the file's name, if the project path is absolute, and changes the working directory; a relative path is followed twice, a language other than Python ends in UnboundLocalError and a file without such a function in KeyError.", "quantifier": "all names, moments, paths, files and working directories", "why_tests_cant": "quantifies over all strings and moments; collisions depend on where separators occur in names", "anchors": ["GPyOpt/util/io.py:gen_datestr", "GPyOpt/interface/output.py:Report.__init__", "GPyOpt/interface/output.py:Logger.__init__", "GPyOpt/interface/func_loader.py:load_objective"]}
{"id": "C105", "title": "On finite spaces the search is complete", "statement": "For a deterministic objective on a space without continuous variables, with de_duplication and the sequential, random or Thompson sampling evaluator, a run that returns after as many iterations as there were configurations left reports the minimum of the objective over the whole domain. With that number as iteration limit, no time limit and tolerance 0 every run that returns does so.", "quantifier": "all finite spaces, objectives, surrogates, acquisitions and initial designs without repetitions", "why_tests_cant": "a statement about all functions on all finite domains and about whole runs", "anchors": ["GPyOpt/core/bo.py:BO.run_optimization", "GPyOpt/util/duplicate_manager.py:DuplicateManager", "GPyOpt/optimization/acquisition_optimizer.py:AcquisitionOptimizer.optimize"]}
{"id": "C106", "title": "Continuing never makes the reported optimum worse", "statement": "The optimum reported after a run is not worse than any value known before, supplied by the user or observed in earlier runs; so the optimum of a later run is never worse than that of an earlier one, whatever was run or suggested in between.", "quantifier": "all objectives, deterministic or not, all histories of runs and suggestions", "why_tests_cant": "quantifies over all histories and over objectives with state or noise", "anchors": ["GPyOpt/core/bo.py:BO.run_optimization", "GPyOpt/core/bo.py:BO._compute_results"]}
{"id": "C107", "title": "Representer points of entropy search", "statement": "The representer points come from an external sampler of the proposal density. On spaces of continuous and discrete variables, with any sampler in which a walker stays or moves to a point of positive density, every point kept lies within the bounds, has positive expected improvement and comes with its logarithm; there are at most as many as asked for, and exactly as many if the improvement is positive everywhere in the bounds. They need not be configurations: constraints are ignored, and discrete variables take values outside their domain.", "quantifier": "all such spaces, samplers, numbers of points, initial draws and improvement functions", "why_tests_cant": "the sampler is random and external; quantifies over all its moves and any number of steps", "anchors": ["GPyOpt/util/mcmc_sampler.py:AffineInvariantEnsembleSampler.get_samples", "GPyOpt/acquisitions/ES.py:AcquisitionEntropySearch._update_parameters"]}
{"id": "C108", "title": "The components built from a configuration file", "statement": "The driver can only build Gaussian processes, EI and MPI: the other documented models and acquisitions raise AttributeError or NotImplementedError, unknown names Exception; the sampling acquisitions build the plain ones. What is built receives exactly the other entries of its section as parameters. The four evaluators can be built, and need a batch size unless sequential. A file that does not mention a section gets the default components. The driver's own stopping test counts the run time in minutes, while the loop takes the same number as seconds.", "quantifier": "all configurations", "why_tests_cant": "quantifies over all nested dictionaries a file can hold", "anchors": ["GPyOpt/interface/driver.py:BODriver", "GPyOpt/models/__init__.py:select_model", "GPyOpt/acquisitions/__init__.py:select_acquisition", "GPyOpt/core/evaluators/__init__.py:select_evaluator"]}
{"id": "C109", "title": "Output files described by a configuration", "statement": "An output engine is created exactly when every dictionary of the section 'output' describes a saver: a report, or a csv log of the best value, with an interval that is positive or -1, a directory, and a file name or null; it then has these savers in the order of the file. Creating it empties the files of the loggers, also those before an entry that is refused. A file without the section gets one report at the end and one log line per iteration. The section has no effect on the driver, which neither creates nor uses an engine.", "quantifier": "all configurations, file systems and clocks", "why_tests_cant": "quantifies over all nested dictionaries and over which files can be opened", "anchors": ["GPyOpt/interface/output.py:OutputEng.__init__", "GPyOpt/interface/output.py:Report.__init__", "GPyOpt/interface/output.py:Logger.__init__", "GPyOpt/interface/driver.py:BODriver.run", "gpyopt.py"]}
{"id": "C110", "title": "What an objective may return", "statement": "A number, a list or vector with one entry and a 1 x 1 array are the same answer: every evaluation, in one process or several, is that of the function that returns the number. An evaluation in one process succeeds exactly when every answer is one column, and then the values are these columns in the order of the points; the first other answer ends it in ValueError, but with several processes the caller waits for ever. So there need not be one value per point: columns of k values give k values for each point and one duration, without an error, and with several processes a point without a value of its own can be given the value of another one.", "quantifier": "all objectives returning numbers, vectors and arrays of any shape, all points, clocks, histories and numbers of processes", "why_tests_cant": "quantifies over all shapes of answers and all objectives", "anchors": ["GPyOpt/core/task/objective.py:SingleObjective._eval_func", "GPyOpt/core/task/objective.py:SingleObjective._syncronous_batch_evaluation", "GPyOpt/core/task/objective.py:SingleObjective.evaluate"]}
{"id": "C111", "title": "Constraints written as expressions", "statement": "A constraint is a Python expression in the matrix x of locations. If it is built from columns x[:,i], numbers, functions that work entry by entry and reductions of whole rows, it is decided for every location separately, on that location's coordinates alone: indicator 1 exactly where it is <= 0, and 0 where it is positive or NaN; several constraints are as functions of one row. Constants raise AttributeError, an expression with one number per coordinate ValueError unless there is one coordinate, and a missing column IndexError. Expressions that mention single rows (x[0]) or combine a column with all of x are not decided location by location, and are accepted silently when there are as many locations as coordinates.", "quantifier": "all expressions, functions in them, numbers of coordinates and matrices of locations", "why_tests_cant": "quantifies over all expressions and all matrices; numpy's broadcasting depends on how many locations are checked at once", "anchors": ["GPyOpt/core/task/space.py:Design_space.indicator_constraints", "GPyOpt/core/task/space.py:Design_space.__init__"]}
{"id": "C112", "title": "Stopping tests in double precision", "statement": "In whatever order the machine adds the squares, two equal rows of finite coordinates end a run for every eps >= 0; if a run ends because of eps, the last two locations are within eps up to a relative error of 2^-30 and an absolute one of 2^-520, and locations closer by that margin do end it (rows of up to 2^20 coordinates, less than 2^500 apart). A NaN coordinate, or an eps that is NaN or negative, switches the rule off; eps infinite ends the run at the first test. A budget that is not an integer is rounded up; NaN or infinity as max_iter never ends the run, NaN or nothing positive as max_time never starts it. The pass at whose end the clock shows that max_time is reached is the last one, although the elapsed time is rounded. With eps = 0 different locations can end a run (squares underflow), and near eps the answer can depend on the order of the additions.", "quantifier": "all rows of doubles, orders of addition, thresholds, budgets, limits and clock readings", "why_tests_cant": "quantifies over all doubles and all orders of summation; a test sees one machine", "anchors": ["GPyOpt/core/bo.py:BO.run_optimization", "GPyOpt/core/bo.py:BO._distance_last_evaluations"]}
{"id": "C113", "title": "Random numbers drawn by the objective", "statement": "With one core (or when processes cannot be started) a noisy objective is evaluated row after row, each row with the generator the previous one left, so that over a whole run no random draw is used for two evaluations. With num_cores = n >= 2 every process starts from a copy of the caller's generator, which is itself left unchanged: rows r and s with r div n = s div n receive the same noise, n replicates of one location return n equal values, and the next batch repeats the noise of this one row for row.", "quantifier": "all objectives with a state, numbers of processes, batches, sequences of calls, streams of random numbers and draws made elsewhere in between", "why_tests_cant": "quantifies over generators and histories; a test with one seed cannot tell equal noise from chance", "anchors": ["GPyOpt/core/task/objective.py:SingleObjective.evaluate", "GPyOpt/core/task/objective.py:SingleObjective._syncronous_batch_evaluation", "GPyOpt/core/task/objective.py:SingleObjective._eval_func"]}
{"id": "C114", "title": "The other surrogates after any sequence of updates", "statement": "After any sequence of updates a warped, input-warped, MCMC or random-forest surrogate was built once, from its options, and holds exactly the latest data: the warped GP ran one optimisation per update, the input-warped one those of a GP, the MCMC one predicts with n_samples rows, after the burn-in, of a chain run on the latest data, and the forest is the one fitted to the latest data, predicting a mean between its trees, a deviation that is zero exactly when they agree, and as incumbent the least mean over the data. Violated: noise_var is without effect on both warped models, optimize_restarts on the warped GP; the range of the input warping stays that of the first data, so later points can lie outside; subsample_interval = 0 leaves the old samples with the new data; a forest with warm_start never learns from later data.", "quantifier": "all options, sequences of updates, data, chains and fitting procedures", "why_tests_cant": "needs every sequence of updates; GPy and scikit-learn are arbitrary functions here", "anchors": ["GPyOpt/models/warpedgpmodel.py:WarpedGPModel", "GPyOpt/models/input_warped_gpmodel.py:InputWarpedGPModel", "GPyOpt/models/gpmodel.py:GPModel_MCMC.updateModel", "GPyOpt/models/rfmodel.py:RFModel"]}
{"id": "C115", "title": "Acquisitions asked about many locations at once", "statement": "For a matrix of any number of locations EI, MPI, LCB, the integrated acquisitions and their weighting by feasibility and cost return one row per location, value and gradient those of the location alone, provided a user-supplied cost answers with an n x 1 array; the anchor points are then distinct locations, as many as asked for, and none left out scores lower. A locally penalised acquisition returns one value per location; its gradient is right for a single location (and with a transform other than softplus or none for any number). Violated otherwise: the penalised gradient of two or more locations is a ValueError, or, with as many coordinates as locations, scales coordinates with the values at other locations; a cost of shape (n,) makes the acquisition an n x n array and choosing anchor points an IndexError whenever a location beats the first one.", "quantifier": "all matrices of locations, surrogates, jitters and weights, costs, feasibility indicators, penalisers, sorting routines", "why_tests_cant": "needs every number of locations and coordinates: broadcasting mistakes are invisible when the shapes happen to agree", "anchors": ["GPyOpt/acquisitions/base.py:AcquisitionBase.acquisition_function", "GPyOpt/acquisitions/LP.py:AcquisitionLP.d_acquisition_function", "GPyOpt/optimization/anchor_points_generator.py:AnchorPointsGenerator.get", "GPyOpt/util/general.py:get_quantiles", "GPyOpt/acquisitions/EI_mcmc.py:AcquisitionEI_MCMC._compute_acq"]}
{"id": "C116", "title": "The possible values of a variable", "statement": "For every discrete, categorical or bandit variable of a space, get_possible_values lists exactly the values the surrogate's coordinates may take: rounding any coordinates to the domain returns a listed value and leaves a listed value (and nothing else) unchanged. A continuous variable has no list: AttributeError. In a space without continuous variables the encoded configurations are exactly the choices of one listed value per variable, and, when no list repeats a value, their number is the product of the lengths of the lists. get_continuous_space and get_discrete_space keep exactly the variables of their type, in order.", "quantifier": "all spaces of all variable types, categories, arms and coordinates", "why_tests_cant": "needs every domain and every vector of coordinates, including those outside of the domain", "anchors": ["GPyOpt/core/task/variables.py:DiscreteVariable.get_possible_values", "GPyOpt/core/task/variables.py:CategoricalVariable.get_possible_values", "GPyOpt/core/task/variables.py:BanditVariable.get_possible_values", "GPyOpt/core/task/space.py:Design_space.get_continuous_space", "GPyOpt/core/task/space.py:Design_space.get_discrete_space"]}
{"id": "C117", "title": "What the benchmark functions draw of themselves", "statement": "plot of a one-dimensional benchmark draws exactly the points lo + i/100 below the upper bound (the bounds given, else its own; the upper bound itself is never drawn), each with the value of the function there plus its own noise. plot of a two-dimensional one draws a 100 by 100 grid from bound to bound; the height in row i and column j is the value at the j-th value of the first and the i-th of the second coordinate, and exactly the recorded minima are marked. With the default bounds every recorded minimum is inside the picture.", "quantifier": "all functions, bounds, noise draws and lists of recorded minima", "why_tests_cant": "needs every grid position: transposed or shifted pictures of symmetric functions look right", "anchors": ["GPyOpt/objective_examples/experiments1d.py:function1d.plot", "GPyOpt/objective_examples/experiments2d.py:function2d.plot"]}
{"id": "C118", "title": "Recognising duplicates in double precision", "statement": "On rows of doubles the duplicate manager answers yes exactly for rows that are, entry by entry, the same numbers as a known row: 0.0 and -0.0 are the same, any two different numbers are different however close, and on numbers that doubles represent this is the manager of exact arithmetic. Violated for NaN: a row with a NaN is never recognised, even if it was evaluated. Violated for pending or ignored matrices of zeros only (of either sign): they are not looked at, while a NaN in them counts as an entry other than zero.", "quantifier": "all matrices of doubles including infinities, NaN and signed zeros, all optional pending and ignored matrices", "why_tests_cant": "needs every pair of doubles, including the special values that tests on rounded literals never produce", "anchors": ["GPyOpt/util/duplicate_manager.py:DuplicateManager.__init__", "GPyOpt/util/duplicate_manager.py:DuplicateManager.is_zipped_x_duplicate"]}
{"id": "C119", "title": "Rounding whole rows in double precision", "statement": "On a space of continuous, discrete and categorical variables round_optimum maps every row of doubles, infinite coordinates included, to a point of the space; rounding it again changes no bit; a point of the space keeps all its values (every bit, without discrete variables), so an initial design is evaluated as drawn; and the result is that of exact arithmetic whenever the differences to the values of discrete variables are doubles. Violated otherwise: for far-away coordinates a discrete value that is not nearest is chosen, and a NaN stays in a continuous coordinate.", "quantifier": "all such spaces, all rows of doubles", "why_tests_cant": "needs every double: rounding errors of distances appear only for special magnitudes", "anchors": ["GPyOpt/core/task/space.py:Design_space.round_optimum", "GPyOpt/core/task/variables.py:ContinuousVariable.round", "GPyOpt/core/task/variables.py:DiscreteVariable.round", "GPyOpt/core/task/variables.py:CategoricalVariable.round"]}
{"id": "C120", "title": "Constraints in double precision", "statement": "A row that indicator_constraints declares feasible violates the constraint by at most an explicit rounding tolerance, and a row declared infeasible satisfies it by less than that; so the verdict is that of exact arithmetic wherever the exact value is farther from zero, for any number of rows and constraints. A constraint that compares two columns, or a column with a literal, is always decided exactly, and a row with NaN in a column that a constraint mentions is infeasible. Violated without the tolerance: a sum that absorbs its smaller term is accepted although its exact value is positive, and overflow to inf - inf rejects a row whose exact value is zero.", "quantifier": "all expressions built from columns, literals, negation, abs, sqrt, +, -, * and /, all rows of doubles without overflow in the intermediate results", "why_tests_cant": "needs every expression and every double; rounding flips the verdict only near the boundary", "anchors": ["GPyOpt/core/task/space.py:Design_space.indicator_constraints"]}
{"id": "C121", "title": "The recorded parameters of the surrogate", "statement": "During run_optimization one row of surrogate parameters is recorded per update, and after any history of runs and suggestions the record of the last run shows the parameters after each of its updates in order, if the GP library hands out copies of its parameter array. If model[:] is a view of that array (np.atleast_2d keeps it one), the first row of every run with two or more updates is overwritten by the second; the record is right exactly when copies are handed out or the second update changed nothing.", "quantifier": "all histories of runs and suggestions, all sequences of updates including skipped ones, views and copies", "why_tests_cant": "the effect is aliasing across two updates of one run; it depends on the history, not on one call", "anchors": ["GPyOpt/core/bo.py:BO._save_model_parameter_values", "GPyOpt/core/bo.py:BO._update_model", "GPyOpt/models/gpmodel.py:GPModel.get_model_parameters", "GPyOpt/models/gpmodel.py:GPModel_MCMC.get_model_parameters"]}
{"id": "C122", "title": "The titles in the file of surrogate parameters", "statement": "save_models puts a title over every column: 'Iteration', then the name of the parameter whose values are below. True for GP models as long as no parameter is fixed. Violated otherwise: the library's flat list of names leaves out fixed parameters, so exact_feval=True leaves the last column (the noise) without a title and a fixed kernel parameter shifts all later titles; GP_MCMC uses one name per parameter, so its titles are right exactly when every parameter is a single number.", "quantifier": "all parameter lists of the library (names, sizes, fixed or not), any number of recorded rows", "why_tests_cant": "must hold for every kernel and setting; a test sees one kernel", "anchors": ["GPyOpt/core/bo.py:BO.save_models", "GPyOpt/models/gpmodel.py:GPModel.get_model_parameters_names", "GPyOpt/models/gpmodel.py:GPModel_MCMC.get_model_parameters_names"]}
{"id": "C123", "title": "Evaluation times as costs in double precision", "statement": "With cost 'evaluation_time' and sequential evaluation the cost surrogate holds one output per evaluated row, after any number of updates. The output is a finite number exactly when the clock advanced during the evaluation: an evaluation faster than the clock's resolution gives -inf, a clock set back gives NaN. Such an output stays in the training data of every later update, and if it was there in the first one the surrogate is created with noise variance NaN.", "quantifier": "all sequences of updates, all clock readings, every order of summation in numpy", "why_tests_cant": "depends on the clock of the machine and on the history of updates", "anchors": ["GPyOpt/core/task/cost.py:CostModel.update_cost_model", "GPyOpt/core/task/objective.py:SingleObjective._eval_func", "GPyOpt/models/gpmodel.py:GPModel._create_model"]}
{"id": "C124", "title": "Acquisition values in double precision", "statement": "For predictions, incumbent and jitter that are numbers: LCB is never NaN and never falls when the mean falls or the deviation grows; MPI is a number in [0,1] and never grows with the mean; EI is NaN exactly where the quantile overflows to -inf, and both improvements are exactly 0 more than fifty deviations above the minimum. The minimised value of an infeasible location is 0 for every positive cost and never preferred; a feasible location is strictly preferred wherever the prediction is no worse than the incumbent, and in general exactly where the quotient by the cost does not underflow. The values with and without gradients agree except at infeasible locations where the quotient overflows: there the latter is NaN. Violated: that a feasible location is always strictly preferred for EI, which is positive on paper but 0 on the plateau.", "quantifier": "all doubles for mean, deviation, incumbent, jitter, cost and weight; every library exp and erfc with the stated range, monotonicity and underflow, in particular correctly rounded ones", "why_tests_cant": "rounding, overflow and underflow depend on all the digits of the inputs", "anchors": ["GPyOpt/util/general.py:get_quantiles", "GPyOpt/acquisitions/EI.py:AcquisitionEI._compute_acq", "GPyOpt/acquisitions/MPI.py:AcquisitionMPI._compute_acq", "GPyOpt/acquisitions/LCB.py:AcquisitionLCB._compute_acq", "GPyOpt/acquisitions/base.py:AcquisitionBase.acquisition_function", "GPyOpt/acquisitions/base.py:AcquisitionBase.acquisition_function_withGradients"]}
{"id": "C125", "title": "Choosing start points and the suggestion in double precision", "statement": "The acquisition optimizer starts from the candidates of the design with the smallest acquisition values, NaN counting as largest, and returns an optimised point with the smallest value, unless the first optimised point has the value NaN: then that point is returned. If the local optimizer returns nothing worse than its start, no candidate has a smaller value than the suggestion, and with EI the suggestion is feasible as soon as one candidate is feasible and predicted at least as good as the incumbent. Violated: that one feasible candidate of positive expected improvement is enough; far above the minimum all values underflow to 0, feasible or not, and an infeasible point may be suggested.", "quantifier": "all candidate lists and doubles as their values, NaN and infinities included, every order of equal values that argsort may return, every local optimizer", "why_tests_cant": "depends on rounding, on ties and on the order in which numpy sorts equal values", "anchors": ["GPyOpt/optimization/anchor_points_generator.py:AnchorPointsGenerator.get", "GPyOpt/optimization/acquisition_optimizer.py:AcquisitionOptimizer.optimize", "GPyOpt/optimization/optimizer.py:apply_optimizer", "GPyOpt/acquisitions/EI.py:AcquisitionEI._compute_acq", "GPyOpt/acquisitions/base.py:AcquisitionBase.acquisition_function"]}
{"id": "C126", "title": "Accuracy of acquisition values in double precision", "statement": "For predictions, jitter and minimum of size at most 2^900, the expected improvement that is computed in double precision is a number within 2^-46 of the exact expectation of the improvement under the predicted normal distribution (deviation at least 1e-10), relative to the sizes of the numbers that enter; the probability of improvement is within 2^-46 of the exact probability, relative to one plus those sizes divided by the deviation; the lower confidence bound is within three roundings of the exact one. exp and erfc of the library are assumed accurate to 2^-50, which correctly rounded ones are. Violated: that the relative error is small; far above the minimum the exact expected improvement is positive and the computed one is 0.", "quantifier": "all doubles of size at most 2^900 as mean, deviation, minimum and jitter, every library whose exp and erfc are accurate to 2^-50", "why_tests_cant": "rounding errors add up through some ten operations and cancel or not according to the inputs; unit tests compare with values computed the same way", "anchors": ["GPyOpt/acquisitions/EI.py:AcquisitionEI._compute_acq", "GPyOpt/acquisitions/MPI.py:AcquisitionMPI._compute_acq", "GPyOpt/acquisitions/LCB.py:AcquisitionLCB._compute_acq", "GPyOpt/util/general.py:get_quantiles"]}
{"id": "C127", "title": "Local penalization in double precision", "statement": "In double precision the penalised acquisition of a finite acquisition value is a number or +inf at every location, never NaN, and penalising never makes a location look better than before; with several batch points it looks no better than with any single one of them. Before the first batch point the value is the rounded transformation, a number without a transformation also where the improvement is 0; with one batch point the rounded log-probability of its ball is subtracted. Radius and width of a batch point are the rounded (mean - minimum) / slope and sqrt(deviation) / slope with a positive width, and at the batch point itself the distance is exactly 0. With correctly rounded functions the transformations keep the order of acquisition values, also across the switch of softplus at 40, where exact arithmetic does not. Violated: that locations stay comparable (with softplus every location whose negated acquisition is -1076 or less gets +inf, penalised or not), and that a batch point is ranked strictly worse than before (where its prediction is far below the minimum the penalty is rounded away and the batch may repeat the point).", "quantifier": "all doubles as acquisition values, coordinates, radii and positive widths, any number of batch points, every order in which numpy sums, every library whose exp, log, log1p and log-cdf have the stated signs", "why_tests_cant": "overflow, underflow and absorption depend on the scale of the outcomes; the tests use one small example", "anchors": ["GPyOpt/acquisitions/LP.py:AcquisitionLP._penalized_acquisition", "GPyOpt/acquisitions/LP.py:AcquisitionLP._hammer_function", "GPyOpt/acquisitions/LP.py:AcquisitionLP._hammer_function_precompute", "GPyOpt/core/evaluators/batch_local_penalization.py:estimate_L"]}
{"id": "C128", "title": "De-duplicated batches are as full as the draws allow", "statement": "With de-duplication on, the random evaluator returns a smaller batch than asked for only when fewer different new configurations were drawn than it returns already: if at least as many different new configurations as asked for (two or more) are among the drawn candidates, the batch has exactly the requested size. However often the same configuration is drawn, it takes no one else's place. For Thompson sampling, which first improves each candidate, the batch is full when twice as many different new configurations were drawn as asked for. Violated for Thompson sampling with just as many: two candidates may be improved to the same point.", "quantifier": "every space, context, duplicate record, batch size, number of draws, generator, local optimizer and sampled scores", "why_tests_cant": "which draws repeat, which are known and where the optimizer takes them depends on the generator, the history and the acquisition; a test fixes one of each", "anchors": ["GPyOpt/core/evaluators/batch_random.py:RandomBatch.compute_batch", "GPyOpt/core/evaluators/batch_thompson.py:ThompsonBatch.compute_batch", "GPyOpt/core/evaluators/base.py:SamplingBasedBatchEvaluator.compute_batch", "GPyOpt/optimization/anchor_points_generator.py:AnchorPointsGenerator.get"]}
{"id": "C129", "title": "Normalising outcomes in double precision", "statement": "For up to 2^40 outcomes of size at most 2^400, summed in any order, normalising by mean and deviation returns numbers in the order of the outcomes. The computed mean differs from the exact one by at most n 2^-51 times the average size plus 2^-1075. If the computed deviation is not below 2^-450, the squares of the normalised outcomes average to 1 up to n 2^-48, and their average is 0 up to n 2^-49 times the average size measured in deviations plus 2^-600. A single outcome, and equal integer outcomes with a sum of at most 2^53, become 0. Violated: that equal outcomes always become 0 (three times 0.1 becomes three times -1), that different outcomes stay different (one that lies 2^512 or more from the mean turns all of them into 0), and that they are always scaled (all within 2^-538 of the mean are only centred).", "quantifier": "all lists of doubles within the stated sizes, every order in which numpy sums", "why_tests_cant": "the rounding of a sum depends on every outcome and on the order of summation; the tests normalise two or three short vectors", "anchors": ["GPyOpt/util/general.py:normalize", "GPyOpt/core/bo.py:BO._update_model"]}
{"id": "C130", "title": "Distances and bandit arms in double precision", "statement": "For points of up to 2^40 coordinates of size at most 2^400, added in any order, the Euclidean distance the code computes (for rounding bandit variables, for eps and for local penalization) differs from the exact one by at most n 2^-49 of it plus 2^-516. A bandit variable is therefore rounded to an arm whose squared distance exceeds that of no other arm by more than n 2^-48 of it plus n 2^-1072, and an arm that is nearer than all others by that margin is the one chosen. Violated: that it is always the nearest arm (from 2^60 the arm 0 is chosen although 1 is nearer).", "quantifier": "all rows of doubles within the stated sizes, all finite lists of arms, every order in which numpy sums", "why_tests_cant": "differences, squares, sum and root are each rounded, and the order of the sum depends on the machine; tests use arms that are far apart", "anchors": ["GPyOpt/core/task/variables.py:BanditVariable.round", "GPyOpt/core/bo.py:BO._distance_last_evaluations", "GPyOpt/acquisitions/LP.py:AcquisitionLP._hammer_function"]}
{"id": "C131", "title": "What the distance test does over the life of an object", "statement": "Once the last two evaluated points of an object are within eps of each other, no later run with this or a larger eps evaluates anything, whatever its limits and context and whatever is suggested or raises in between; so a run that returns before its iteration limit (without a time limit or a linear-algebra failure) is the last one that evaluates anything at this eps. If the last two points of the initial design are within eps, the first run evaluates the initial design and makes no acquisition. With batches of two or more points the test compares the last two points of one batch: as long as those are apart, a run that acquired a batch never ends because of eps. Violated by the reading that a run stops once it only repeats itself: a batch of the same two points is evaluated again and again until the limit.", "quantifier": "every object, strategy, objective with one or more processes, eps and every later sequence of runs and suggestions", "why_tests_cant": "it speaks about every continuation of a stopped object; a test runs one", "anchors": ["GPyOpt/core/bo.py:BO.run_optimization", "GPyOpt/core/bo.py:BO._distance_last_evaluations"]}
{"id": "C132", "title": "From the design to the suggestion in double precision", "statement": "In double precision, on spaces of continuous, discrete and categorical variables: translating a configuration for the model and back gives the same numbers; random designs consist of configurations of the space; and whatever the acquisition values (NaN included) and wherever the local optimizer goes (outside of the box, to infinity), as long as it returns no NaN, every suggestion is a configuration, so everything evaluated in any number of iterations is one. With de-duplication no configuration is evaluated twice, and an iteration fails only when every row of its design has been evaluated; without it no iteration fails. Violated when the local optimizer returns NaN: NaN is evaluated, and with de-duplication it is evaluated again and again.", "quantifier": "every space without bandits, generator, acquisition function, sorting of equal scores, local optimizer and number of iterations", "why_tests_cant": "rounding errors, infinities and NaN depend on the bit patterns met on the way; a test meets a few", "anchors": ["GPyOpt/experiment_design/random_design.py:RandomDesign.get_samples_without_constraints", "GPyOpt/core/task/space.py:Design_space.unzip_inputs", "GPyOpt/core/task/space.py:Design_space.zip_inputs", "GPyOpt/optimization/anchor_points_generator.py:AnchorPointsGenerator.get", "GPyOpt/optimization/optimizer.py:apply_optimizer", "GPyOpt/core/bo.py:BO._compute_next_evaluations"]}
{"id": "C133", "title": "maximize=True and observations supplied by the user", "statement": "With maximize=True and X and Y both given to the constructor, Y is used as it is and only new evaluations are negated. If the caller passes minus the values of f, then after any history that ends with a run, x_opt attains the largest value of f over all rows, supplied or new, and -fx_opt is that value. If the caller passes the values of f, the reported row is the best of the new rows or the worst of the supplied ones; so the largest known value may be missed (violated: a row with f = 4 is reported although a supplied row has f = 16). Without an objective maximize changes nothing: the supplied Y is minimised.", "quantifier": "every stateless objective, supplied data, surrogate, strategy, batch size and every history of runs and suggestions", "why_tests_cant": "it relates supplied and evaluated rows over every history; a test fixes one data set", "anchors": ["GPyOpt/methods/bayesian_optimization.py:BayesianOptimization.__init__", "GPyOpt/methods/bayesian_optimization.py:BayesianOptimization._sign", "GPyOpt/methods/bayesian_optimization.py:BayesianOptimization._init_design_chooser"]}
{"id": "C134", "title": "The report in double precision", "statement": "On objective values in double precision nothing in the report is rounded. Without NaN, fx_opt is exactly the least value, infinities included, x_opt is the first row that has it (0.0 and -0.0 are the same value), and Y_best[i] is exactly the least of the first i+1 values. With maximize=True the recorded values are those of f negated, and -fx_opt is exactly the largest value of f, attained at x_opt. With a NaN, x_opt is the row of the first NaN, fx_opt is NaN, and Y_best is NaN exactly from that evaluation on. The report is the one of exact arithmetic on the numbers that the doubles stand for.", "quantifier": "all lists of doubles including NaN, infinities, signed zeros and denormals, rows of any type", "why_tests_cant": "it ranges over all doubles and all positions; a test compares a few values", "anchors": ["GPyOpt/core/bo.py:BO._compute_results", "GPyOpt/util/general.py:best_value", "GPyOpt/methods/bayesian_optimization.py:BayesianOptimization._sign"]}
{"id": "C135", "title": "A whole run in double precision", "statement": "A run of run_optimization computed in double precision, on spaces of continuous, discrete and categorical variables with the sequential evaluator: everything evaluated is a configuration of the space, earlier rows and values stay, and each new value is the objective at its row; with de-duplication no configuration is evaluated twice; at most max_iter points are acquired, a fractional budget rounded up, exactly that many when nothing else ends the run, and none without any limit. When f is never NaN, minimising reports an evaluated row at which f is exactly fx_opt, the least of all evaluated values, and maximising one at which f is exactly -fx_opt, the largest. A run with a budget always ends: with a report, or, only with de-duplication, because every row of a design has been evaluated.", "quantifier": "every space without bandits, objective, surrogate and acquisition (NaN scores and failing fits included), local optimizer that returns no NaN, clock, order of additions, limits and eps", "why_tests_cant": "it ranges over all bit patterns along all runs; a test follows one run", "anchors": ["GPyOpt/core/bo.py:BO.run_optimization", "GPyOpt/core/bo.py:BO._compute_next_evaluations", "GPyOpt/core/bo.py:BO.evaluate_objective", "GPyOpt/core/bo.py:BO._compute_results"]}
{"id": "C136", "title": "Integrated acquisitions in double precision", "statement": "For at most 2^40 hyper-parameter samples and predictions of size at most 2^900, the integrated acquisitions computed in double precision are numbers. The integrated expected improvement is within 2^-45 + n 2^-48, relative to the average size of the numbers that enter, of the average of the exact expected improvements plus twice the jitter times the average probability of improvement (the sign error of the code), and without jitter of the average expected improvement; the integrated probability is within 2^-45, relative to one plus those sizes divided by the deviation, plus n 2^-50 of the average probability; the integrated lower confidence bound is within n 2^-48 of the average bound, relative to its terms. With one sample probability and bound are exactly the plain ones; a NaN from one sample makes the result NaN. Violated: that the average of numbers is a number; the running sum may overflow.", "quantifier": "all lists of up to 2^40 samples, all doubles of size at most 2^900, every library whose exp and erfc are accurate to 2^-50", "why_tests_cant": "error bounds range over all bit patterns and numbers of samples", "anchors": ["GPyOpt/acquisitions/EI_mcmc.py:AcquisitionEI_MCMC._compute_acq", "GPyOpt/acquisitions/MPI_mcmc.py:AcquisitionMPI_MCMC._compute_acq", "GPyOpt/acquisitions/LCB_mcmc.py:AcquisitionLCB_MCMC._compute_acq"]}
{"id": "C137", "title": "Optimizers that share a surrogate", "statement": "Several optimizers can be given the same surrogate object. For any interleaving of run_optimization and suggest_next_locations calls on them, each optimizer returns, raises, evaluates, records and reports exactly what it would with a surrogate of its own, for every model_update_interval and also when calls on the others fail, provided that fitting the surrogate forgets earlier fits, as random forests without warm_start do. Violated otherwise: a GP with optimised parameters starts each fit where the last one ended, so a call on one optimizer changes what another suggests.", "quantifier": "any number of optimizers, spaces, objectives, acquisitions and evaluators, any sequence of calls, every state of the surrogate at the beginning", "why_tests_cant": "it ranges over all interleavings of calls; a test runs one", "anchors": ["GPyOpt/methods/modular_bayesian_optimization.py:ModularBayesianOptimization.__init__", "GPyOpt/core/bo.py:BO.__init__", "GPyOpt/core/bo.py:BO._update_model", "GPyOpt/core/bo.py:BO.suggest_next_locations", "GPyOpt/core/bo.py:BO.run_optimization", "GPyOpt/models/rfmodel.py:RFModel.updateModel", "GPyOpt/models/gpmodel.py:GPModel.updateModel"]}
{"id": "C138", "title": "Random designs under constraints in double precision", "statement": "A random design drawn under constraints (the initial design, and the candidates of the acquisition optimizer) has, as stored doubles, exactly the requested number of rows; each is a value of every variable and makes every constraint's computed double at most 0. So in exact arithmetic no row violates a constraint by more than the rounding tolerance of C120, and comparisons of columns or of a column with a number hold exactly. The rows are the first passing ones in drawing order. The call ends, then without an error, exactly if enough of the drawn rows pass; otherwise it loops for ever. Violated: that it ends whenever the feasible region is everything; a constraint that holds exactly on every row may round to a positive number on every row.", "quantifier": "all mixed spaces of continuous, discrete and categorical variables, all constraints made of the IEEE operations, all sequences of random draws, all requested sizes", "why_tests_cant": "it ranges over all random draws and over unbounded numbers of rejection rounds", "anchors": ["GPyOpt/experiment_design/random_design.py:RandomDesign.get_samples", "GPyOpt/experiment_design/random_design.py:RandomDesign.get_samples_with_constraints", "GPyOpt/experiment_design/random_design.py:RandomDesign.get_samples_without_constraints", "GPyOpt/core/task/space.py:Design_space.indicator_constraints"]}
{"id": "C139", "title": "Runs under constraints in double precision", "statement": "Every row a constrained run evaluates, from the initial design on and for any number of iterations, makes every constraint's computed double at most 0; so in exact arithmetic it violates no constraint by more than the rounding tolerance of C120, and no comparison of columns and numbers at all. This holds when the candidates' acquisition divided by the cost does not round to 0 and the point a local optimizer returns, after rounding to the domain, is never worse than its start; on continuous spaces it is enough that the optimizer stays in the box and is never worse. Violated otherwise: rounding to a discrete value can leave the feasible region although the local optimizer did not, and where expected improvement is computed as 0 an optimizer may leave it at no loss.", "quantifier": "all mixed spaces of continuous and discrete variables and of categorical ones with at least two categories, all constraints made of the IEEE operations, all acquisitions, costs, draws and local optimizers, any number of iterations", "why_tests_cant": "it ranges over whole runs with all draws and optimizer answers, and depends on roundings that a test meets by chance", "anchors": ["GPyOpt/core/bo.py:BO.run_optimization", "GPyOpt/acquisitions/base.py:AcquisitionBase.acquisition_function", "GPyOpt/optimization/optimizer.py:apply_optimizer", "GPyOpt/experiment_design/random_design.py:RandomDesign.get_samples_with_constraints", "GPyOpt/core/task/space.py:Design_space.indicator_constraints"]}
{"id": "C140", "title": "Using the optimizer from inside the objective", "statement": "An objective may call suggest_next_locations of the optimizer that is evaluating it, and catch what the call raises. The data of the run stay sound whatever it asks: old rows and values first, one value per new row, each the objective's. In worker processes the calls change nothing, and a limit of at most one iteration still holds. Violated beyond that: while a batch is evaluated its rows have no values, so a surrogate that wants one value per row refuses the call; every call starts the counting of iterations again, so that with max_iter of two or more a run in which every evaluation asks is ended by the time, eps or a LinAlgError only, and may go on for ever; the context of the run is replaced by that of the call; and a call that does not return holds up the evaluation for ever.", "quantifier": "all objectives that make any calls while they are evaluated, all surrogates, batches, clocks, limits and starting states", "why_tests_cant": "it ranges over every pattern of nested calls, and one of the outcomes is a run that never ends", "anchors": ["GPyOpt/core/bo.py:BO.suggest_next_locations", "GPyOpt/core/bo.py:BO.run_optimization", "GPyOpt/core/bo.py:BO.evaluate_objective", "GPyOpt/core/task/objective.py:SingleObjective.evaluate"]}
{"id": "C141", "title": "Closing the output of an experiment", "statement": "Until an output engine is closed, its savers and files are those of any sequence of append_iter calls. Closing it changes no file, and no log is changed afterwards; closing twice is closing once, and the data are still collected. If no log is open, closing has no effect: reports are written on the same schedule. Savers listed before the first open log do not notice either. Violated with an open log, for using the engine further: with a log line per iteration every later append_iter that is not final raises; with one every n iterations some call raises at the latest when n more were made; and once a closed log has raised, every later append_iter raises, final ones too, and no saver after that log is called again, so that the report of the end is never written.", "quantifier": "all savers, all sequences of append_iter and close, all data, and all outcomes of writing a report", "why_tests_cant": "a property of unbounded histories of calls, some of which raise", "anchors": ["GPyOpt/interface/output.py:OutputEng.close", "GPyOpt/interface/output.py:OutputEng.append_iter", "GPyOpt/interface/output.py:Logger.close", "GPyOpt/interface/output.py:Logger.save_data"]}
