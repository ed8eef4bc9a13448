# Formal model of SheffieldML/GPyOpt in Rocq (Coq 8.16.1)

Layout (all under `rocq/theories`, logical name `Verif`):

* `Model/*.v`  – the code, function by function. Definitions only; every definition cites file and lines of /repo.
* `Spec/*.v`   – small independent specifications (what "valid configuration", "in the domain", "nearest",
  "feasible", "Gaussian expectation" ... mean). They do not use the model's helpers.
* `Proof/*.v`  – lemmas.
* `Props/*.v`  – the property theorems, each followed by an `Example` meeting its hypotheses and by `Print Assumptions`.

## Modelling conventions

* **Exceptions** are values: `res A := Ok a | Raise e`. A Python function that can raise returns `res`.
  The optimization loop returns the state *together with* the exception, so crash-point states are visible.
* **Numbers.** Executable parts (space, designs, duplicates, batches, loop) compute in `Qc`, the canonical rationals:
  exact arithmetic, decidable Leibniz equality. Analytic parts (acquisitions, normalisation with square roots,
  penalisers, gradients, benchmark functions) live in the standard reals `R` with Coquelicot for derivatives and integrals.
  Floating-point rounding, NaN and infinities are NOT modelled in these layers (trusted simplification);
  the NaN-sensitive control points are treated in a separate layer (`Model/Ieee.v`).
* **Matrices** are lists of rows. Shape errors that numpy reports become `Raise ValueError`/`IndexError`.
* **External parties** are arguments over which the theorems quantify: the objective function, constraint functions,
  the surrogate model, the acquisition, the local optimizer (scipy), the random generator (a stream of draws),
  the quasi-random generators, the clock, `argsort` (any sorting permutation).
* **Unbounded loops** take fuel and return a distinct result on exhaustion; theorems say for which fuel they do not exhaust,
  or that no fuel suffices.
* Where the code does not do what its documentation says, the English property states precisely when it does, the guarded half is
  proved, and a theorem ending in `_refuted` exhibits a witness (computed by the kernel) for the failing half.

## Plan per property

| id | modelled | proof |
|----|----------|-------|
| C01 | variable encode/decode, `unzip_inputs`, `zip_inputs` | induction over variables, per-kind round trip; refuted for categorical domains other than 0..k-1 |
| C02 | same | induction; injectivity as corollary |
| C03 | `round_optimum`, the four `round` methods | induction; argmin/clip lemmas |
| C04 | same, squared Euclidean distance | per-block projection lemma, sum over blocks |
| C05 | `get_bounds`, `_compute_variables_indices` | induction with offset |
| C06 | constructor pipeline | case analysis, induction over descriptors |
| C07 | name expansion, `find_variable` | induction; collision witness |
| C08 | `indicator_constraints` loops | induction over constraints and rows |
| C09 | bandit paths | witness by computation + one-bandit theorem |
| C10 | random design, draws oracle | induction over variables |
| C11 | rejection loop with fuel, stream of draws | loop invariant; fuel-independence; divergence for all fuel |
| C12 | `iroot` Newton loop | well-founded descent, AM-GM style lemma |
| C13 | `multigrid`, `_adjust_init_points_count` | product lattice: NoDup, membership, length |
| C14 | affine scaling of an arbitrary unit design | strata lemma |
| C15 | `initial_design` selector | case analysis + C11 |
| C16 | grid size computation | computation |
| C17,C18 | `ContextManager` | index-list algebra |
| C19 | `apply_optimizer`, `AcquisitionOptimizer.optimize` with arbitrary optimizer | C03/C04 + C17 |
| C20 | `OptimizationWithContext` over R | chain rule along coordinates |
| C21 | anchor generation under a context | witness + guarded theorem |
| C22 | `DuplicateManager` | set membership; zero-matrix witness |
| C23 | `AnchorPointsGenerator.get` for any sorting permutation | permutation and sortedness lemmas |
| C24 | `apply_optimizer` with manager, `Sequential` | case analysis |
| C25 | `min(..., key=...)` | fold invariant |
| C26,C27 | `SamplingBasedBatchEvaluator.compute_batch` | loop invariant, witnesses |
| C28 | non-dedup batch paths | length arithmetic |
| C29 | `LocalPenalization.compute_batch` with penaliser state | loop invariant over penaliser trace |
| C30–C37 | BO state machine: run, evaluate, update, suggest | invariants over loop and over sequences of calls, crash states |
| C38 | constructor of `BayesianOptimization` | decision table |
| C39 | strided split/merge | index arithmetic on `nth` |
| C40 | constructor wiring | equality for all arguments |
| C41–C43 | `CostModel` | history invariant; wiring impossibility; shapes |
| C44 | `normalize` over R | sums, sqrt |
| C45 | `merge_values` | list algebra |
| C46 | EI over R, Gaussian integral as improper integral | antiderivative + limits |
| C47 | gradients of EI, MPI, LCB | Coquelicot derivatives |
| C48 | MPI over R | monotonicity of Phi |
| C49 | MCMC variants | sums over samples, witness with jitter |
| C50 | `AcquisitionBase` | quotient rule |
| C51 | masked acquisition + candidate selection | sign argument, witness |
| C52 | rounding + constraints | witness |
| C53 | `AcquisitionLP` | monotonicity; ranking without batch points; derivative; counterexamples |
| C54 | logP renormalisation | exp/log sums |
| C55 | `GPModel.predict*` | clip/sqrt |
| C56 | `GPModel_MCMC` slicing and parameter restore | arithmetic, state invariant |
| C57 | covariance clipping | guarded + witness |
| C58 | warping indices | guarded + witness |
| C59 | `update_config` on trees | path law by induction |
| C60 | `OutputEng` clocks | induction over call sequences |
| C61 | driver construction | argument check, for all configurations |
| C62 | `ArgumentsManager` | classification |
| C63 | report attribute availability | case analysis |
| C64 | table layout | inverse function |
| C65 | benchmark functions over R | inequalities; witnesses; for eggholder a subdivision of the box into rational boxes, proved sound and computed by `vm_compute`, and a polynomial bound near the minimum |
| C66 | derivative adjustment of `joint_min` | derivative rules; exact condition; witness |
| C67 | `lt_factor`, sweeps of `min_faktor` | rank-one algebra; induction over sweeps with positive definiteness giving the denominators |
| C68 | `min_faktor` | derivative of a quadratic form; derivative of a matrix inverse along a line; uniqueness of the solution of (I + Sigma Q) X = Sigma |
| C69 | `_compute_acq` of entropy search | index bijection; Gibbs inequality |
| C70 | life of the acquisition object | induction over the history |
| C71 | proposal density, removal of points | case analysis |
| C72 | GPModel.updateModel as a state machine over an abstract GPy | induction over the updates |
| C73 | GPModel.copy, call binding of GPModel_MCMC.copy | case analysis, computation |
| C75 | `Logger.save_data` | argmin of the concatenation, prefix argument |
| C76 | `ArgumentsManager` creators with positional binding | tables, case analysis |
| C78 | `save_models`, the file writing at the end of `run_optimization` | case analysis over the files |
| C79 | `Model/Pipeline.v`: the four evaluators plugged into the loop | an invariant of X over `loop`, runs and histories; batches from C22/C26 lemmas, decoding of model rows |
| C80 | the same | the invariant "no repetitions"; local penalization refuted by a run |
| C81 | the same | pigeonhole over the list of all configurations; one row per iteration |
| C82 | `Model/Ieee.v`: finite numbers, NaN, infinities; numpy min and argmin; the report | induction over the scan; agreement with `BO.v` on finite values |
| C83 | `Model/Ieee.v`: normalize with IEEE special values | the sum of data with a non-finite entry is not finite, one squared difference is NaN |
| C84 | `Model/Ieee.v`: Python's min with key | induction; witness with a NaN first |
| C77 | returned value of a benchmark for several rows, with and without noise | list induction; shape of alpine1 |
| C74 | the loop with a surrogate without get_model_parameters | induction over histories |
| C85 | `Model/Solver.v`: OptLbfgs, OptDirect, OptCma, choose_optimizer, apply_optimizer with df; external solvers as arguments | case analysis; refinement of `Optim.v` |
| C86 | `Model/ESearch.v`: the dimension check of entropy search inside acquisition.optimize | counting columns; no suggestion because every candidate's value is needed |
| C87 | `joint_min` for two points | the cavity is the prior in every sweep (invariant), closed form of log Z |
| C88 | two calls of `run_optimization` on the same object | simulation between the iterations of the long run and of the second run, with the iteration count shifted by a |
| C89 | `Model/Session.v`: `ask_tell`, the loop of the notebook | induction over the iterations of the run: a new object fits the same surrogate and suggests the same batch |
| C90 | `Model/Session.v`: schedules of `Ask` and `Tell` | invariant over schedules: finished and pending points are a permutation of the first and suggested points; rows of a batch are unknown to the duplicate manager |
| C91 | `Model/Helpers.v`: `lipschitz` (samples, argmin, solver result, floor) over R | first smallest sample; mean value theorem along segments and Cauchy-Schwarz for the Lipschitz claim |
| C92 | `Model/Helpers.v`: `rf_predict`, `rf_get_fmin` | sums over lists; bound of the deviation by half the range (Popoviciu) |
| C93 | `Model/Float.v`: `samples_uniform`, `samples_scaled`, `linspace` over Flocq's binary64 | monotonicity of rounding; the product of a rounded width with a draw below 1 never exceeds the exact width; relative error bounds for grids |
| C94 | `Model/Float.v`: `round_continuous`, `round_discrete`, `round_categorical`; `Model/FloatBandit.v`: `round_bandit` | order of the extended non-negative doubles; a difference of doubles rounds to 0 only if it is 0 |
| C95 | `Model/Float.v`: `normalize_maxmin`, `normalize_stats` | monotonicity of rounding through the three operations |
| C96 | `Model/Alias.v`: the loop of `BO.v` with a heap of arrays; the objective leaves any contents in the row it gets | simulation: the heap run equals the plain run up to the last suggestion, which is a fresh array; frame of all older arrays |
| C97 | `Model/Alias.v`: `urun`, any program of runs, suggestions, get_evaluations and writes | noninterference: two runs whose heaps agree outside of the arrays the user owns |
| C98 | `get_continuous_dims`, `get_discrete_dims`, `input_dim`, `get_discrete_grid`, `get_bandit`, `get_subspace`, `bounds_to_space` in `Model/Space.v` | against positions in the list of kinds (`Spec/QuerySpec.v`); induction over the variables with an offset |
| C99 | `bo_plot_convergence`, `plot_acquisition` in `Model/Plot.v` on the state of `Model/BO.v` | induction over runs for the aligned data (C18), frame of `suggest_next_locations`, the report of C63 before and after |
| C100 | `acqu_normalized`, `plot1`, `arange`, `mesh`, `contour` in `Model/Plot.v` over `R` | against `least`, `greatest`, `inside` of `Spec/PlotSpec.v`; indices of the mesh by induction over its rows |
| C101 | `fromConfig` in `Model/FromConfig.v`, with the changed dictionaries as part of the result | against `says` in `Spec/FromConfigSpec.v`, induction over the list of variables |
| C102 | `Model/Toolbox.v` over `R` | induction over lists; the derivative of the root with Coquelicot |
| C103 | `integrated` in `Model/Toolbox.v`, with the kernel's parameters as state | induction over the samples; linearity of the derivative |
| C104 | `Model/Files.v`: names as strings, paths as lists, files as a function | unique decoding from the right at the separators; `str_nat` is injective |
| C105 | `with_suggester` of `Model/Pipeline.v` in the loop of `Model/BO.v` | no repetition (C80), in the domain (C79) and counting (C81) give a bijection with all configurations |
| C106 | the loop of `Model/BO.v` | append-only data (C30) and the reported minimum (C33) |
| C107 | `Model/Sampler.v`: the sampler is an argument, positions and densities over `R` | invariant of the chain of walkers; bounds from C05; the start from C10 |
| C108 | `Model/Driver.v` on the configurations of `Model/Config.v` | case analysis on the section's entries; the defaults through C59 |
| C109 | `Model/Outputs.v`: the savers from a configuration, files that can be opened are an argument | case analysis per entry, induction over the section; the defaults through C59 |
| C110 | `Model/Answers.v`: answers of any shape | refinement to `Model/Objective.v` for answers of one number; induction over the points; witnesses |
| C111 | `Model/Constraints.v`: constraint expressions over the matrix of locations, numpy broadcasting | induction over the expression; refinement to `Model/Space.v`; witnesses |
| C112 | `Model/FloatStop.v`: the tests of the loop in binary64, np.sum in any order | induction over the tree of additions and over the passes; witnesses |
| C113 | `Model/Noise.v`: a generator threaded through the objective, copied into each process | induction over rows and calls; strides put together again; refuted for several processes |
| C114 | `Model/Surrogates.v`: WarpedGP, InputWarpedGP, GP_MCMC and RF models as records of what GPy / scikit-learn was asked to do | induction over the updates; refuted parts by witness or for all inputs |
| C115 | `Model/Arrays.v`: numpy arrays of 0, 1 and 2 dimensions with broadcasting; the acquisitions, costs and anchor scores as array programs | refinement: every array operation is the row-wise operation on the shapes the code uses; refuted parts for all inputs |
| C116 | `get_possible_values`, `get_continuous_space`, `get_discrete_space` in `Model/Values.v` | against `valid_block` and `rounds_to` (`Spec/ValuesSpec.v`); `choices` by induction over the variables |
| C117 | `plot1d`, `plot2d` in `Model/BenchPlot.v` over `R` | indices of the mesh and of the reshaped values as in C100; ceilings for the number of points |
| C118 | `unique_points_f`, `is_duplicate_f` in `Model/FloatDup.v` | equality of doubles by cases; refinement against `duplicate_manager` by induction over the rows |
| C119 | `round_optimum_f` in `Model/FloatRow.v` | first nearest value by an invariant of the loop; blocks by induction over the variables; refinement against `round_optimum` |
| C120 | `xeval`, `indicator_constraints_f` in `Model/FloatCons.v` | error bound by induction over the expression; sign of a difference by monotony of rounding |
| C121 | `Model/Record.v`: the parameter array of the surrogate and the record, possibly the same array | induction over the updates of a run |
| C122 | `Model/Header.v`: parameters of the library and the names asked of it; `save_models` of `Model/Report.v` | induction over the parameters; counting labels for the other direction |
| C123 | `Model/FloatCost.v` | sign of a difference of doubles is exact; -inf survives every order of addition and makes the variance NaN |
| C124 | `Model/FloatAcq.v`: quantiles, EI, MPI, LCB and the weighting in binary64 | case analysis of Flocq's operations on numbers and infinities; monotonicity of rounding; tail bound of the normal distribution for the library |
| C125 | `Model/FloatAnchor.v`: sorting of scores, Python's min, EI as the score | < on doubles that are not NaN is the order of reals; induction over the list for the pick; C124 for feasibility |
| C126 | `Model/FloatAcq.v` against the integrals of `Spec/RSpec.v` | error analysis operation by operation; the density bounds how errors of the quantile are passed on; pi by Machin's formula |
| C127 | `Model/FloatLP.v`: transformation, radius, width, penalties and their sum | signs are closed under rounded sums in every order; doubles below 40 are at most 40 - 2^-47; numbers of size 1 absorb terms below 2^-56 |
| C128 | `Model/Optim.v`: `random_batch`, `thompson_batch` against the rows drawn, repeats included | repeats removed by `sort_unique`, unzipping, context expansion and rounding are injective on the rows drawn; induction over the anchors counts those skipped |
| C129 | `Model/FloatNorm.v`: mean, deviation and normalisation with numpy's sums in any order | the error of a rounded sum in any order is at most 2 n 2^-53 times the sum of sizes; the squares of the computed differences are compared with the computed deviation, not with the exact one |
| C130 | `Model/FloatBandit.v`: `round_bandit`; `Model/FloatStop.v`: `distance` | differences of doubles have a relative error only, squares an absolute one too; the error of a sum in any order is that of C129; the root of a positive double is never tiny |
| C131 | `Model/BO.v`: `run_optimization`, `last_two_close`, `step` | an iteration of the loop breaks at once when the last two rows are close, so the state is an invariant of histories; after `n > 0` batches the last two rows are those of the last batch |
| C132 | `Model/FloatPipe.v`: unzip, zip, random design, duplicates, anchors, rounding and choice on rows of doubles | the sum that decodes a category is exact below 2^53; each stage keeps "valid blocks, not a known row"; induction over the iterations |
| C133 | `Model/BO.v`: `bayesian_optimization`, `sign`, `init_design_chooser`, `run_optimization` | the data after a history are the supplied ones followed by the negated values of the new rows (C30); the reported row attains the least entry (C33), read back as a maximum of f on either part |
| C134 | `Model/FloatReport.v`: `best_value_f`, `compute_results_f`, `sign_f` | comparisons of doubles are those of the extended numbers they stand for, so minimum and argmin commute with reading a double as such a number; then the lemmas of C82 |
| C135 | `Model/FloatRun.v`: `loop_f`, `run_f` (suggestion of `FloatPipe.v`, tests of `FloatStop.v`, report of `FloatReport.v`) | invariant of the loop: rows are configurations, values are answers, the count is below the budget; then the report theorem of C134 |
| C136 | `Model/FloatMcmc.v`: `samples_mean`, `ei_sample_f`, `ei_mcmc_f`, `mpi_mcmc_f`, `lcb_mcmc_f` | error of each sample as in C126, error of the running sum as in C129, composed; NaN and one sample by computation |
| C137 | `Model/Shared.v`: `call`, `together`, `by_itself` over `BO.v`, with the surrogate as a cell the optimizers share | every call updates the surrogate before it is used (the acquisition count is 0 then), so two states that differ only in the surrogate stay so; induction over the calls; a counting surrogate as witness |
| C138 | `Model/FloatReject.v`: `keep_valid_f`, `reject_f`, `get_samples_f` over `FloatPipe.v` (designs) and `FloatCons.v` (constraints) | induction over the rounds with the passing rows so far as invariant; each round by C132 and C120; (3, 2^53) as witness |
| C139 | `Model/FloatMask.v`: `x_z`, `masked_f`, `rounded_local`, with `suggest_f` and `acquire_f` of `FloatPipe.v` and the designs of `FloatReject.v` | an infeasible point has value 0 or NaN, a candidate less than 0, so a point that is not worse than a candidate passes; induction over the iterations with C132 and C138 |
| C140 | `Model/Reentrant.v`: the loop of `BO.v` with an objective that calls `suggest_next_locations` while its rows are evaluated | one turn of the loop inverted, then induction over the turns; the run without end by an invariant of a concrete optimizer |
| C141 | `Model/Close.v`: the engine of `Output.v` with the files of its loggers and close | induction over the uses; invariants on the clock of one saver |

## Trusted base

What has to be believed for a theorem of `MANIFEST.json` to say something about GPyOpt:

1. **The kernel of Coq 8.16.1** (and the OCaml compiler and run time it was built with). No plugin beyond those of the
   distribution is loaded; `vm_compute` is used in examples and witnesses, so its virtual machine is part of the kernel trusted.
   No flag that weakens the kernel is set, there is no `Axiom`, `Parameter`, `Admitted`, functor or module type in the project.
2. **The axioms of the standard library** listed below, theorem by theorem. They come from the construction of the real numbers
   (`ClassicalDedekindReals.sig_forall_dec`, `sig_not_dec`), from functional extensionality and from classical logic, all three as
   used by `Reals` and by Coquelicot. Theorems over the rationals are closed under the global context. A checker that
   looks at all constants a file may refer to (`coqchk -o`) also lists the sealed fields of the modules
   `Rdefinitions.RbaseSymbolsImpl`, `Rdefinitions.RinvImpl` and `ssr.ssrunder.Under_rel` of the standard library; these are
   definitions hidden by a module signature, not axioms.
3. **The model.** That the definitions in `Model/` describe the Python code. Each one cites the lines it models; the tables
   below say what is and what is not modelled.
4. **The specifications** in `Spec/`, which are meant to be read together with the theorems in `Props/`.

### What Print Assumptions lists

Generated by `tools/assumptions.py` from the compiled files.

<!-- assumptions:begin -->
* **Closed under the global context, no axioms** (364 theorems): C01_zip_unzip_identity, C01_bandits, C01_other_categories_refuted, C02_unzip_zip_identity, C02_encoding_injective, C03_round_optimum_in_domain, C03_one_row, C03_bandit_width, C04_round_optimum_is_projection, C04_round_optimum_idempotent, C05_bounds_exact, C05_model_space_layout, C06_construction_classified, C07_find_variable, C07_names_collide_refuted, C08_indicator_constraints, C08_no_constraints, C09_single_bandit, C09_two_bandits_refuted, C10_random_design_in_domain, C10_random_design_unconstrained, C10_selected, C11_returned_design_is_feasible_and_complete, C11_returns_once_enough_feasible_rows, C11_never_returns_without_feasible_rows, C11_result_independent_of_fuel, C12_iroot_is_integer_root, C12_root_unique, C13_grid_design_is_full_lattice, C13_selected, C14_unit_designs_scaled_and_stratified, C14_selected, C15_unknown_design, C15_constrained_designs, C16_grid_without_continuous_variables_raises, C16_grid_on_a_wide_bandit_raises, C16_grid_with_continuous_variables_succeeds, C17_context_expansion, C18_context_columns_partition, C18_no_context, C18_unknown_context_variable, C19_sequential_carries_context, C19_random_batch_carries_context, C19_thompson_batch_carries_context, C19_local_penalization_carries_context, C19_optimize_succeeds, C19_context_outside_domain_refuted, C20_restricted_objective_and_gradient, C21_anchors_feasible_without_context_columns, C21_anchors_feasible, C21_wrong_column_refuted, C21_index_error_refuted, C22_duplicates_are_the_known_rows, C22_duplicates_in_general, C22_zero_pending_refuted, C23_anchor_points, C23_lowest_acquisition, C23_lowest_sample, C23_random_in_order, C24_single_suggestion_is_new, C25_best_candidate_is_returned, C26_suggestions_of_an_object, C26_random_batch_distinct_and_new, C26_random_batch_succeeds, C26_thompson_batch_distinct_and_new, C26_size_one_overshoots_refuted, C27_random_batch_starts_with_optimum, C27_zero_optimum_dropped_refuted, C28_suggestions_of_an_object, C28_rows_of_a_run, C28_batch_sizes_without_deduplication, C28_local_penalization_size, C29_local_penalization, C29_suggests_evaluated_point_refuted, C30_aligned_and_append_only, C30_values_are_answers, C30_no_processes_refuted, C31_evaluated_once_in_order, C32_stops_for_a_documented_reason, C32_terminates_with_iteration_limit, C32_terminates_with_time_limit, C32_no_time_no_acquisition, C32_no_limits_no_acquisition, C33_reported_optimum, C34_nothing_is_lost, C34_exception_leaves_X_ahead_of_Y, C34_mismatch_is_permanent, C35_update_schedule, C35_interval_zero, C36_same_trajectory_as_minus_f, C36_reports_the_maximum, C37_suggestions_do_not_touch_the_data, C38_without_objective, C38_with_objective, C38_Y_without_X_is_ignored, C39_same_values_as_sequential, C39_schedules_are_finite, C39_every_schedule_returns_the_values, C39_schedules_agree_with_the_function, C39_falls_back_when_start_fails, C39_fall_back_refuted, C40_num_cores_is_ignored, C40_processes_are_batch_size, C41_cost_model_accumulates, C41_cost_of_a_point, C41_other_costs, C41_cost_model_learns_every_row, C42_evaluation_time_refuted, C43_sequential_costs_fit, C43_parallel_costs_refuted, C43_parallel_costs_later_refuted, C45_product, C45_kinds, C45_empty_is_neutral, C45_associative, C51_masked_value, C51_withGradients_agrees, C51_quotient_rule, C51_positive_acquisitions, C51_LCB_refuted, C51_one_category_refuted, C52_continuous_spaces, C52_rounding_refuted, C56_samples_kept, C56_one_result_per_sample, C56_after_an_exception, C56_restored_after_exception_refuted, C58_warped_columns, C58_only_then, C58_warped_columns_refuted, C59_value_at_every_path, C59_no_key_disappears, C59_when_it_fails, C59_parsed, C60_schedule, C60_fractional_refuted, C60_exceptions, C60_schedule_refuted, C60_intervals, C61_never_runs, C61_type_error, C61_space_required, C61_script, C62_accepted, C62_evaluator, C62_documented_types_refuted, C62_penalization_refused, C63_report_of_a_finished_run, C63_which_spaces, C63_wide_bandits_refuted, C63_modular_refuted, C63_before_the_first_run, C63_cost_and_constraints_refuted, C64_table, C64_after_every_history, C64_after_an_exception, C67_other_points, C70_parameters_frozen, C70_first_evaluation, C70_reflects_model_refuted, C71_kept_points, C72_updates, C73_copy, C73_same_kind_exactly_when, C73_mcmc_copy_refuted, C74_nothing_is_acquired, C74_no_suggestion, C74_attribute_error, C74_which_types, C75_line, C75_objective_never_increases, C75_log_file, C75_unopened, C76_model_options, C76_acquisition_options, C76_verbosity_model_refuted, C76_no_options_refuted, C78_models_table, C78_no_time_refuted, C78_order_of_files, C79_rows_in_domain, C79_run_keeps_context, C79_suggestions, C80_no_configuration_twice, C80_new_rows_of_a_run, C80_suggestions, C80_local_penalization_refuted, C81_at_most_all_configurations, C81_iterations, C81_exhausted, C82_nan, C82_numbers, C82_penalty, C82_finite_agrees, C84_candidates, C84_first_nan, C84_refuted, C85_reported_value, C85_inside, C85_no_worse, C85_abnormal, C85_gradient_only, C85_df_alone_refuted, C85_refusals, C85_covered, C86_supported, C86_unsupported_refuted, C86_evaluators, C86_bandit_refuted, C88_split, C88_interval_refuted, C88_refit_refuted, C89_ask_tell_is_run, C89_interval_refuted, C90_no_point_twice, C90_all_different, C90_in_domain, C90_pending_and_ignored, C90_zero_vector_refuted, C94_nan_refuted, C94_bandit_refused, C96_run, C96_initial, C96_initial_kept, C96_initial_refuted, C96_cost_refuted, C97_returned_arrays, C97_own_array, C97_own_array_refuted, C97_x_opt_refuted, C98_dimensions, C98_dimensions_of_bandits_refuted, C98_discrete_grid, C98_bandit_arms, C98_subspace, C98_old_bounds, C99_convergence_curves, C99_convergence_raises, C99_convergence_after_error_refuted, C99_plotting_keeps_the_data, C99_what_is_drawn, C99_plotting_undoes_completion_refuted, C99_three_dimensions, C101_same_space, C101_second_time_refuted, C101_mistake_is_final, C101_dimensionality_required, C101_name_required, C102_reshape, C102_reshape_refuted, C104_files_differ, C104_moments_differ, C104_files_differ_refuted, C104_loads, C104_relative_path_refuted, C104_refused, C104_missing_directory, C104_language, C104_function_name, C105_global_optimum, C105_budget, C106_no_worse_than_known, C106_runs_improve, C107_metropolis, C108_model, C108_model_builds, C108_model_types_refuted, C108_acquisition, C108_acquisition_builds, C108_acquisition_types_refuted, C108_mcmc_refuted, C108_evaluator, C108_evaluator_builds, C108_defaults, C108_check_stop, C108_no_limits, C108_bad_limit, C108_time_limit, C108_minutes_refuted, C109_created, C109_one_meaning, C109_failed, C109_no_section, C109_defaults, C109_paths, C109_driver_ignores_the_section, C110_one_number, C110_columns, C110_refused, C110_refused_in_parallel, C110_one_value_per_point_refuted, C110_own_value_refuted, C111_each_location, C111_as_functions, C111_refused, C111_single_row, C111_one_coordinate, C111_single_rows_refuted, C111_column_with_matrix_refuted, C113_one_process, C113_processes, C113_draws, C113_draws_processes, C113_fresh, C113_fresh_refuted_in_batch, C113_fresh_refuted_next_batch, C114_warped, C114_warped_options_refuted, C114_input_warped, C114_warped_columns, C114_input_warped_noise_refuted, C114_warping_range, C114_warping_range_exactly_when, C114_warping_range_refuted, C114_mcmc, C114_mcmc_samples, C114_mcmc_stale_refuted, C114_forest_warm_start_refuted, C116_values, C116_points, C116_by_type, C121_copies, C121_views, C121_exactly_when, C121_rows, C121_start, C122_gp, C122_exact_feval, C122_mcmc, C122_refuted, C125_starts, C128_random, C128_thompson, C128_thompson_refuted, C131_stuck, C131_early_is_final, C131_initial, C131_batches, C131_repeating_refuted, C133_negated, C133_as_they_are, C133_largest_refuted, C133_without_objective, C137_alone, C137_order, C137_forest, C137_gp, C137_warm_refuted, C140_silent, C140_workers, C140_data, C140_refused, C140_limit_refuted, C140_endless_refuted, C140_one, C140_context_refuted, C140_waits, C141_before, C141_frozen, C141_reports, C141_every_iteration_refuted, C141_in_time_refuted, C141_stuck_refuted, C141_earlier
* **`ClassicalDedekindReals.sig_forall_dec`** (4 theorems): C77_one_value_per_point, C102_evaluate, C102_evaluate_raises, C115_anchors
* **`ClassicalDedekindReals.sig_forall_dec`, `ClassicalDedekindReals.sig_not_dec`, `Classical_Prop.classic`, `FunctionalExtensionality.functional_extensionality_dep`** (210 theorems): C41_cost_gradient, C41_constant_cost, C46_expected_improvement, C46_positive, C46_decreasing_in_the_mean, C46_increasing_in_the_deviation, C47_EI_gradient, C47_MPI_gradient, C48_probability_of_improvement, C48_between_0_and_1, C48_decreasing_in_the_mean, C48_in_the_deviation, C49_EI_MCMC_is_the_average_refuted, C49_MPI_MCMC_gradient, C49_LCB_MCMC_gradient, C49_EI_MCMC_gradient, C49_EI_MCMC_gradient_refuted, C50_infeasible_region, C53_penalized_is_worse, C53_more_points_are_worse, C53_closer_is_worse, C53_penaliser, C53_gradient_without_batch, C53_gradient_of_the_logarithm, C53_gradient_with_a_batch_point, C53_gradient_with_a_batch_point_refuted, C53_same_ranking, C53_improvements_are_ranked, C53_same_ranking_lcb, C53_same_ranking_lcb_refuted, C54_probabilities, C54_ratios, C54_weights, C54_single_point, C54_predictions, C55_gradients, C55_double_precision, C65_ackley, C65_branin, C65_branin_documented, C65_mccormick, C65_forrester, C65_alpine2, C65_eggholder, C66_first_derivatives, C66_second_derivatives_iff, C66_second_derivatives_refuted, C67_message_update, C67_sweeps, C67_marginals, C67_moment_matching, C67_gaussian_ratio, C68_first_derivative, C68_second_derivative, C68_returned_derivatives, C68_covariance_derivative, C69_lower_bound, C69_no_information, C71_proposal, C71_infinite, C87_two_points, C91_lipschitz_constant, C91_local_minimum_refuted, C93_random, C93_overflow, C93_latin_sobol, C93_one_refuted, C93_latin_overflow_refuted, C93_grid, C93_grid_one, C93_grid_subnormal_refuted, C94_continuous, C94_discrete_member, C94_discrete_fixes, C94_discrete_nearest, C94_discrete_nearest_refuted, C94_categorical, C94_refused, C94_bandit_member, C94_bandit_fixes, C94_bandit_refuted, C95_maxmin, C95_maxmin_order, C95_stats_order, C95_strict_refuted, C102_moment_gradients, C107_inside, C107_none_lost, C107_walkers, C107_constraints_refuted, C107_domain_refuted, C112_equal_rows_stop, C112_stop_means_close, C112_close_means_stop, C112_nan_rows, C112_no_threshold, C112_infinite_threshold, C112_different_rows_stop_refuted, C112_large_threshold_refuted, C112_order_refuted, C112_budget, C112_endless, C112_no_time, C112_time_limit, C112_time_left, C115_penalised, C115_penalised_gradient, C115_penalised_gradient_refuted, C115_penalised_gradient_mixed_refuted, C117_marks_visible, C118_duplicates, C118_numbers, C118_nan_refuted, C118_zeros_refuted, C118_exact, C119_in_domain, C119_idempotent, C119_fixes, C119_exact, C119_exact_refuted, C119_nan_refuted, C120_margin, C120_decided, C120_difference, C120_nan, C120_rounding_refuted, C120_overflow_refuted, C123_outputs, C123_for_good, C123_noise, C123_refuted, C124_lcb, C124_mpi, C124_ei, C124_plateau, C124_weighting, C124_preference, C124_improving, C124_two_versions, C124_library, C124_refuted, C124_refuted_nan, C124_refuted_versions, C125_pick, C125_suggestion, C125_feasible, C125_refuted, C125_refuted_nan, C126_ei, C126_mpi, C126_lcb, C126_library, C126_refuted, C127_radii, C127_no_nan, C127_penalty, C127_every_point, C127_order, C127_plateau, C127_pending, C127_value, C127_one, C127_library, C127_refuted, C129_order, C129_unit, C129_zero, C129_mean, C129_equal, C129_equal_refuted, C129_overflow, C129_underflow, C130_distance, C130_nearest, C130_chosen, C130_nearest_refuted, C132_encoding, C132_decoding, C132_design, C132_suggestion, C132_run, C132_run_ends, C132_nan_refuted, C134_report, C134_nan, C134_maximize, C134_agrees, C135_evaluations, C135_full_budget, C135_minimum, C135_maximum, C135_ends, C136_ei, C136_ei_no_jitter, C136_mpi, C136_lcb, C136_one, C136_nan, C136_overflow_refuted, C138_rows, C138_margin, C138_first, C138_ends, C138_never, C138_hangs_refuted, C139_suggestion, C139_run, C139_continuous, C139_rounding_refuted, C139_plateau_refuted
* **`ClassicalDedekindReals.sig_forall_dec`, `ClassicalDedekindReals.sig_not_dec`, `FunctionalExtensionality.functional_extensionality_dep`** (36 theorems): C41_predicted_costs_positive, C44_stats, C44_maxmin, C44_rejects, C47_LCB_gradient, C49_MPI_MCMC_is_the_average, C49_LCB_MCMC_is_the_average, C49_EI_MCMC_value, C50_weighted_gradient, C53_widths_are_positive, C55_deviation_floor, C55_deviation_exact, C65_alpine1, C65_mccormick_no_minimum_on_the_plane, C65_dropwave_refuted, C65_cosines_refuted, C65_cosines_coordinates, C68_marginal_identities, C77_noisy_alpine1_refuted, C83_finite, C83_stats, C83_maxmin, C91_positive, C91_covers_samples, C91_not_above, C92_predictions, C92_tree_order, C92_fmin, C100_curve_is_visible, C102_moments, C103_gradient, C114_forest, C115_values, C115_gradients, C115_costs, C115_integrated
* **`ClassicalDedekindReals.sig_forall_dec`, `FunctionalExtensionality.functional_extensionality_dep`** (34 theorems): C46_incumbent, C46_incumbents, C50_weighted_value, C50_boundary, C57_right_exactly_when, C57_entries, C57_symmetric, C57_covariance_refuted, C65_rosenbrock, C65_powers, C65_goldstein, C65_gSobol, C65_sixhumpcamel, C65_beale_refuted, C69_pairing, C69_second_order, C77_its_own_value, C100_scaled, C100_constant_refuted, C100_grid, C100_contour, C102_best_guess, C102_best_guess_decreasing, C102_best_value, C103_average, C103_library_model_refuted, C115_weighted, C115_flat_cost_one, C115_flat_cost_refuted, C117_curve, C117_contour, C117_ends, C126_floor, C127_constants
<!-- assumptions:end -->

### Modelled

| Files of /repo/GPyOpt | Model | What is left out |
|---|---|---|
| core/task/space.py, core/task/variables.py | `Space.v`, `Values.v`, `Constraints.v`, `FromConfig.v`, `Float.v`, `FloatRow.v`, `FloatPipe.v`, `FloatBandit.v`, `FloatCons.v` | `input_dim` printing, `__str__`; constraint strings are functions of the point that may raise, or expression trees in `Constraints.v` (no Python parser) |
| experiment_design/*.py | `Design.v`, `Float.v`, `FloatPipe.v`, `FloatReject.v` | the pseudo random, Latin and Sobol generators of numpy/pyDOE/sobol_seq: arbitrary streams |
| core/task/objective.py, core/task/cost.py | `Objective.v`, `FloatCost.v`, `Answers.v`, `Noise.v`, `Parallel.v`, `AcqR.v`, `Report.v` | processes and pipes are atomic sends; the GP inside the time-based cost is an arbitrary fit |
| core/bo.py, methods/*.py | `BO.v`, `FloatStop.v`, `Report.v`, `Record.v`, `FloatReport.v`, `FloatRun.v`, `Header.v`, `Ieee.v`, `Session.v`, `Shared.v`, `Reentrant.v`, `Alias.v`, `Plot.v` | printing |
| plotting/plots_bo.py | `Plot.v` | the calls of matplotlib: what is handed to them is modelled, not the picture |
| core/evaluators/*.py | `Optim.v`, `Pipeline.v`, `AcqR.v`, `Helpers.v` | L-BFGS-B inside `estimate_L` is an argument |
| optimization/*.py | `Optim.v`, `FloatAnchor.v`, `FloatPipe.v`, `Solver.v` | the solvers of scipy, DIRECT and pycma: functions that may return anything or raise |
| util/duplicate_manager.py, util/arguments_manager.py, util/general.py, util/stats.py | `Optim.v`, `Options.v`, `Util.v`, `AcqR.v`, `Float.v`, `FloatNorm.v`, `FloatDup.v`, `Toolbox.v` | numpy's generator |
| acquisitions/*.py | `AcqR.v`, `Arrays.v`, `FloatAcq.v`, `FloatMcmc.v`, `FloatMask.v`, `FloatLP.v`, `Masked.v`, `ESearch.v` | the normal density, distribution and error function are integrals in `R`, not scipy's approximations |
| acquisitions/ES.py, util/epmgp.py, util/mcmc_sampler.py | `ES.v`, `ESearch.v`, `Sampler.v` | the Cholesky factorisation and log-determinants are arguments with the equations they satisfy as hypotheses; emcee is any accept-reject sampler |
| models/*.py | `Models.v`, `Surrogates.v`, `AcqR.v`, `Call.v`, `Helpers.v`, `Float.v` | GPy and scikit-learn: abstract types and functions |
| objective_examples/*.py | `Bench.v`, `BenchPlot.v` | noise is an arbitrary draw; the calls of matplotlib |
| interface/*.py, util/io.py | `Config.v`, `Output.v`, `FromConfig.v`, `Files.v`, `Driver.v`, `Outputs.v`, `Close.v` | reading files, HDF5 |

### Not modelled

* Verbose printing.
* Floating-point rounding, except in `Model/Float.v` (designs, rounding to the domain, normalisation and the deviation floor), `FloatStop.v`, `FloatDup.v`, `FloatRow.v`, `FloatCons.v`, `FloatCost.v`, `FloatNorm.v`, `FloatBandit.v`, `FloatAcq.v`, `FloatLP.v`, `FloatAnchor.v`, `FloatPipe.v`, `FloatReport.v`, `FloatRun.v`, `FloatMcmc.v`, `FloatReject.v` and `FloatMask.v`, which compute in IEEE binary64 with Flocq. `Model/Ieee.v` treats NaN and the infinities where they steer the control flow. Everything else is exact arithmetic.
* Threads other than the worker processes of `core/task/objective.py`; signals; running out of memory.
* Aliasing of numpy arrays outside of `Model/Alias.v` (arrays of locations in the loop): elsewhere values are immutable.
