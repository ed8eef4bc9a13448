c("C01", "proved", "Guarded round trip, plus the two counterexamples outside the guard.")
c("C02", "proved")
c("C03", "proved", "A space with no variable at all is excluded (round_optimum raises on it).")
c("C04", "proved")
c("C05", "proved", "C05_bounds_exact adds that every bound is attained; the lower bound 0 of a categorical variable with one category is the exception.")
c("C06", "proved", "Also classifies the KeyError (unnamed descriptor with a dimensionality) and AttributeError (bandit given as a list) cases.")
c("C07", "proved")
c("C08", "proved")
c("C09", "proved", "One bandit: positive theorem; two bandits of width two: counterexample.")
c("C10", "proved", "Uniform draws are exact rationals in [0,1]; positions are arbitrary.")
c("C11", "proved")
c("C12", "proved")
c("C13", "proved")
c("C14", "proved", "The unit-cube generators (pyDOE.lhs, i4_sobol_generate) are arbitrary inputs.")
c("C15", "proved")
c("C16", "proved")
c("C17", "proved")
c("C18", "proved")
c("C19", "proved", "For the sequential, random, Thompson and local-penalization evaluators, any solver result; categorical domains written 0..k-1. Counterexample for a context value outside its domain.")
c("C20", "proved", "Derivatives over the rationals (the model's number type).")
c("C21", "proved", "What holds (constraints hold without the context columns), when the expected statement follows, and two counterexamples.")
c("C22", "proved", "Guarded equivalence, what holds in general, and the all-zero counterexample.")
c("C23", "proved", "For any sorting permutation (ties broken arbitrarily).")
c("C24", "proved")
c("C25", "proved")
c("C26", "proved", "With the size-1 overshoot as counterexample.")
c("C27", "proved", "Guarded, with the all-zero optimum as counterexample.")
c("C28", "proved")
c("C29", "proved")
c("C30", "proved", "With batch_size 0 (no processes) as counterexample.")
c("C31", "proved", "Sequential evaluation (one process); calls made inside child processes are covered by C39.")
c("C32", "proved", "Termination for every limit; the clock is an arbitrary function of the number of readings.")
c("C33", "proved")
c("C34", "proved", "What survives an exception, the misalignment it leaves, and that it is permanent.")
c("C35", "proved", "Plus the ZeroDivisionError with interval 0.")
c("C36", "proved")
c("C37", "proved")
c("C38", "proved")
c("C39", "proved", "Functional statement and all-schedules statement over a transition system of parent and children; the documented fall-back is refuted for exceptions in children and for messages larger than the pipe.")
c("C40", "proved", "The documented claim is false; the theorem says what holds instead.")
c("C41", "proved", "Accumulation over all histories; positivity and gradient of the predicted cost over the reals.")
c("C42", "proved", "The documented claim is false; proved for every history, including ones with exceptions.")
c("C43", "proved", "Sequential costs fit; parallel costs refuted for every batch other than one row.")
c("C44", "proved", "Over the reals.")
c("C45", "proved", "For every kind of argument and any number of rows and columns.")
c("C46", "proved", "Improper Riemann integral over the whole line, for every surrogate; the Gaussian integral is proved, not assumed.")
c("C47", "proved", "For every surrogate whose own gradients are right.")
c("C48", "proved", "For every surrogate.")
c("C49", "proved", "LCB and MPI: values and gradients. EI: exact value of the difference; average and gradient refuted.")
c("C50", "proved", "Value everywhere; gradient where the neighbourhood is feasible (or infeasible); no derivative exists at the boundary.")
c("C53", "proved", "Monotonicity for any number of batch points; the ranking of candidates without batch points, with the counterexample at 40; gradient without batch points; with one batch point an exact characterisation and a counterexample.")
c("C55", "proved", "Over the reals, for every GPy mean and variance.")
c("C54", "proved", "For every mean, covariance and linear-algebra routine; the predicted probabilities as well.")
c("C66", "proved", "First derivatives in general; second derivatives characterised exactly and refuted.")
c("C67", "proved", "Real arithmetic; the update is stated as the two linear equations that determine the new marginal.")
c("C68", "proved", "For fixed messages, as in the code. The covariance derivative assumes that the linear solver inverts and that the log-determinant obeys Jacobi's formula.")
c("C69", "proved", "Any number of points.")
c("C70", "proved", "Exact characterisation for every history; the expectation itself refuted.")
c("C71", "proved", "")
c("C56", "proved", "Every number of samples, burn-in and interval; the parameters are restored when no prediction raises; refuted after an exception.")
c("C57", "proved", "Exact characterisation; that the result is a covariance matrix is refuted.")
c("C58", "proved", "Both directions, for every space whose categorical variables have categories; the documented claim refuted.")
c("C72", "proved", "Any number of updates.")
c("C73", "proved", "Exact characterisation; GPModel_MCMC.copy refuted.")
c("C74", "proved", "The expectation is false: stated as what happens for every history.")
c("C59", "proved", "Every nested configuration without duplicate keys; includes exactly when the merge raises.")
c("C60", "proved", "Exact schedule when savers do not raise; with exceptions: nothing is lost and the saver is retried, but the schedule of later savers is refuted.")
c("C61", "proved", "The expectation is false: proved that run never returns, and that it raises TypeError.")
c("C62", "proved", "Exact characterisation of what is accepted; the documented names refuted.")
c("C75", "proved", "")
c("C76", "proved", "Tables of options in Spec/OptionsSpec.v; the options without effect refuted.")
c("C65", "proved", "exact minima over the plane or the documented box; the three refuted entries give the true minimum; branin, mccormick, camel, eggholder, alpine2 and forrester to the digits stated in the theorems; eggholder by a verified subdivision of its box")
c("C77", "proved", "holds for every benchmark except alpine1 with noise, where C77_noisy_alpine1_refuted gives the matrix returned")

c("C63", "proved", "positive for BayesianOptimization on spaces where the dimension equals the number of variables; refuted for the others, for ModularBayesianOptimization and for the cost and constraints lines")
c("C64", "proved", "csv text formatting of the numbers is not modelled: a table is its header and rows of numbers")
c("C78", "proved", "")
c("C51", "proved", "EI and MPI enter as positive acquisitions; their positivity is C46_positive and C48_between_0_and_1. LCB and one-category variables refuted. Values of cost 0 and floating-point underflow of EI to 0 are outside the model")
c("C52", "proved", "holds on continuous spaces without context for optimizers that do not end worse than they start; refuted on discrete spaces")
c("C79", "proved", "the four evaluators of Optim.v inside the loop of BO.v; contexts must be values of their variables (C18 covers the others)")
c("C80", "proved", "guarded to sequential, random and thompson_sampling; refuted for local_penalization")
c("C81", "proved", "")
c("C82", "proved", "exact finite arithmetic extended by NaN and the two infinities")
c("C83", "proved", "")
c("C84", "proved", "guarded to a first candidate whose value is a number; refuted otherwise")
c("C85", "proved", "solvers are arguments; the clause about df without f_df is refuted (NameError)")
c("C86", "proved", "holds for continuous and discrete variables, refuted with categorical or bandit variables")
c("C87", "proved", "Exact arithmetic; the linear solver and log-determinant are assumed right on one by one matrices.")
c("C88", "proved", "Holds when the surrogate is updated in each iteration and stable under refitting; both conditions are necessary (refuted otherwise). Runs with a time limit or with the measured time as cost are not covered.")
c("C89", "proved", "Guarded statement proved for every run; refuted for model_update_interval = 2.")
c("C90", "proved", "Proved for every point other than the zero vector, refuted for it.")
c("C91", "proved", "The clauses about the solver are guarded by what the solver has to satisfy; the unguarded Lipschitz claim is refuted. Exact real arithmetic.")
c("C92", "proved", "Trees are arbitrary functions; exact real arithmetic.")
c("C93", "proved", "IEEE binary64 of Flocq; numpy's formulas for uniform and linspace. Guards and what happens outside of them are both stated.")
c("C94", "proved", "IEEE binary64 of Flocq; the norm of a bandit difference is added in any order. C130 says how near the arm is.")
c("C95", "proved", "IEEE binary64 of Flocq; mean and deviation of 'stats' are arbitrary doubles.")
c("C96", "proved", "Arrays of locations are references to a heap; the objective writes only to its argument. The unprotected initial rows are refuted with a witness.")
c("C97", "proved", "Noninterference of writes to returned arrays; sharing of the initial X and of x_opt shown by witnesses.")
c("C98", "proved", "The failure for bandits with wide arms is refuted with a witness.")
c("C99", "proved", "The missing plot after an aborted run and the reset record are refuted with witnesses; the drawing functions of matplotlib are arguments.")
c("C100", "proved", "A constant acquisition is refuted for all of them. Real arithmetic; the curve and matrix handed to matplotlib.")
c("C101", "proved", "Reading twice is refuted for every non-empty configuration.")
c("C102", "proved", "The shapes reshape does not handle are refuted for all of them. Real arithmetic; the GPy model is a function.")
c("C103", "proved", "That the library's own model can be used is refuted for all samples and kernels.")
c("C104", "proved", "Collisions between experiments and relative paths are refuted. Files and directories are functions of paths; '..' and links are outside the model.")
c("C105", "proved", "Built on C30, C32, C33, C79, C80.")
c("C106", "proved", "Built on C30 and C33.")
c("C107", "proved", "emcee is any accept-reject sampler; Metropolis samplers are shown to be such. That points satisfy constraints and lie on the grid of discrete variables is refuted.")
c("C108", "proved", "Exact characterisation per section; that every documented type can be built is refuted for all configurations that name another one.")
c("C109", "proved", "Exact characterisation in both directions; that the section has an effect on a run is false, for every configuration.")
c("C110", "proved", "Exact characterisation for one process; with several processes for answers of one number, columns of k >= 2 values, and answers that are never columns. That there is one value per point is refuted.")
c("C111", "proved", "Induction over the expression, with numpy's broadcasting modelled; refinement to the constraints of Model/Space.v, so C08 and the claims about constrained spaces apply. Counterexamples for expressions with single rows and for a column combined with the matrix. The parser of Python is not modelled.")
c("C112", "proved", "Flocq's binary64; np.sum is any binary tree of additions over any permutation. Error bounds by induction over the tree; the loop by induction over its passes. Counterexamples for underflow, overflow and the order of additions.")
c("C113", "proved", "Fork semantics of multiprocessing: a child starts with a copy of the parent's state. Sequential freshness by induction over the calls; the loss of freshness with several processes is proved for every stream and batch.")
c("C114", "proved", "GPy and scikit-learn are abstract; for the warm-started forest scikit-learn's documented rule (no new trees without a larger n_estimators) is a hypothesis. Induction over the updates; column bounds by induction over the rows.")
c("C115", "proved", "numpy broadcasting over real numbers; the gradients of the integrated acquisitions are covered row by row only (C49). Refinement of the one-row formulas of Model/AcqR.v, by induction over the rows.")
c("C116", "proved", "Both directions between the listed values and rounding; counting by induction over the variables.")
c("C117", "proved", "Over real numbers; the calls of matplotlib are their arguments. The default bounds and minima are those of the nine functions derived from function2d.")
c("C118", "proved", "IEEE binary64 with Flocq; refinement of the manager of Model/Optim.v on representable numbers; the two violations are proved for all inputs.")
c("C119", "proved", "IEEE binary64 with Flocq; bandit variables (alone in their space) are in C94. Refinement of round_optimum of Model/Space.v where the differences are exact, with a witness where they are not.")
c("C120", "proved", "IEEE binary64 with Flocq; running error analysis over expressions; ** and transcendental functions, whose rounding IEEE 754 does not prescribe, are outside.")
c("C121", "proved", "Both behaviours of the library are covered: whether model[:] is a view or a copy is a parameter of the model, since GPy is not part of the repository.")
c("C122", "proved", "GPy is not part of the repository: labels, sizes and fixed marks of parameters are arguments, and whether the flat list of names leaves out fixed parameters is a parameter of the model (in paramz it does).")
c("C123", "proved", "np.log is any function with its special values; the order of np.sum is left open.")
c("C124", "proved", "np.exp and scipy's erfc are any functions with the properties of libm_like, which correctly rounded ones have (C124_library). One location at a time; Model/Arrays.v has whole arrays.")
c("C125", "proved", "C23, C25 and C51 say this of exact values; designs, contexts and duplicates are modelled there. That the local optimizer returns nothing worse than its start is a hypothesis where it is used: rounding to the domain may break it (C52).")
c("C126", "proved", "The accuracy of the library's exp and erfc is a hypothesis; a correctly rounded library is shown to have it and to exist. C124 says what holds without it.")
c("C127", "proved", "The signs of the library's functions are a hypothesis; correctly rounded ones are shown to have them and to exist. C53 is the same code on real numbers.")
c("C128", "proved", "The guarded form (twice as many) and the witness settle the Thompson half.")
c("C129", "proved", "Overflow and underflow are stated for every list that meets them, with an example of each. C44 is the same code on exact numbers; C95 takes mean and deviation as given.")
c("C130", "proved", "IEEE binary64 of Flocq. That an arm is kept is C94.")
c("C131", "proved", "The refuted reading is not part of what the code promises; its witness is C131_repeating_refuted.")
c("C132", "proved", "Contexts and constraints are in the exact model (C19, C79); the guarded form and the witness for NaN settle the statement.")
c("C133", "proved", "The reading that Y holds values of f is refuted by C133_largest_refuted; C133_as_they_are says what happens then.")
c("C134", "proved", "Which of two equal zeros ndarray.min returns is not claimed.")
c("C135", "proved", "Composes C112, C132 and C134; contexts, constraints, costs and batches are in the exact model.")
c("C136", "proved", "Values only; gradients of the integrated acquisitions are in the exact model (C49). The overflow of the sum is C136_overflow_refuted.")
c("C137", "proved", "Each optimizer draws its own random numbers in the model; calls are not nested in one another. The violation is C137_warm_refuted with C137_gp.")
c("C138", "proved", "Spaces without bandit variables; constraints use + - * / abs sqrt and unary minus. The violation is C138_hangs_refuted.")
c("C139", "proved", "No bandit variables, no context, sequential evaluation. The violations are C139_rounding_refuted and C139_plateau_refuted.")
c("C140", "proved", "The value of the objective does not depend on what the nested call returns; nested calls of run_optimization are not modelled. The violations are C140_limit_refuted, C140_endless_refuted and C140_context_refuted; C140_refused says which calls fail.")
c("C141", "proved", "The violations are C141_every_iteration_refuted, C141_in_time_refuted and C141_stuck_refuted; loggers are taken to have different files, and every point the same number of inputs.")
