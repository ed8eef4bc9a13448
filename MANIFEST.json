{
 "claims": [
  {
   "property": "C01",
   "status": "proved",
   "theorems": [
    "C01_zip_unzip_identity",
    "C01_bandits",
    "C01_other_categories_refuted"
   ],
   "note": "Guarded round trip, plus the two counterexamples outside the guard."
  },
  {
   "property": "C02",
   "status": "proved",
   "theorems": [
    "C02_unzip_zip_identity",
    "C02_encoding_injective"
   ],
   "note": ""
  },
  {
   "property": "C03",
   "status": "proved",
   "theorems": [
    "C03_round_optimum_in_domain",
    "C03_one_row",
    "C03_bandit_width"
   ],
   "note": "A space with no variable at all is excluded (round_optimum raises on it)."
  },
  {
   "property": "C04",
   "status": "proved",
   "theorems": [
    "C04_round_optimum_is_projection",
    "C04_round_optimum_idempotent"
   ],
   "note": ""
  },
  {
   "property": "C05",
   "status": "proved",
   "theorems": [
    "C05_bounds_exact",
    "C05_model_space_layout"
   ],
   "note": "C05_bounds_exact adds that every bound is attained; the lower bound 0 of a categorical variable with one category is the exception."
  },
  {
   "property": "C06",
   "status": "proved",
   "theorems": [
    "C06_construction_classified"
   ],
   "note": "Also classifies the KeyError (unnamed descriptor with a dimensionality) and AttributeError (bandit given as a list) cases."
  },
  {
   "property": "C07",
   "status": "proved",
   "theorems": [
    "C07_find_variable",
    "C07_names_collide_refuted"
   ],
   "note": ""
  },
  {
   "property": "C08",
   "status": "proved",
   "theorems": [
    "C08_indicator_constraints",
    "C08_no_constraints"
   ],
   "note": ""
  },
  {
   "property": "C09",
   "status": "proved",
   "theorems": [
    "C09_single_bandit",
    "C09_two_bandits_refuted"
   ],
   "note": "One bandit: positive theorem; two bandits of width two: counterexample."
  },
  {
   "property": "C10",
   "status": "proved",
   "theorems": [
    "C10_random_design_in_domain",
    "C10_random_design_unconstrained",
    "C10_selected"
   ],
   "note": "Uniform draws are exact rationals in [0,1]; positions are arbitrary."
  },
  {
   "property": "C11",
   "status": "proved",
   "theorems": [
    "C11_returned_design_is_feasible_and_complete",
    "C11_returns_once_enough_feasible_rows",
    "C11_never_returns_without_feasible_rows",
    "C11_result_independent_of_fuel"
   ],
   "note": ""
  },
  {
   "property": "C12",
   "status": "proved",
   "theorems": [
    "C12_iroot_is_integer_root",
    "C12_root_unique"
   ],
   "note": ""
  },
  {
   "property": "C13",
   "status": "proved",
   "theorems": [
    "C13_grid_design_is_full_lattice",
    "C13_selected"
   ],
   "note": ""
  },
  {
   "property": "C14",
   "status": "proved",
   "theorems": [
    "C14_unit_designs_scaled_and_stratified",
    "C14_selected"
   ],
   "note": "The unit-cube generators (pyDOE.lhs, i4_sobol_generate) are arbitrary inputs."
  },
  {
   "property": "C15",
   "status": "proved",
   "theorems": [
    "C15_unknown_design",
    "C15_constrained_designs"
   ],
   "note": ""
  },
  {
   "property": "C16",
   "status": "proved",
   "theorems": [
    "C16_grid_without_continuous_variables_raises",
    "C16_grid_on_a_wide_bandit_raises",
    "C16_grid_with_continuous_variables_succeeds"
   ],
   "note": ""
  },
  {
   "property": "C17",
   "status": "proved",
   "theorems": [
    "C17_context_expansion"
   ],
   "note": ""
  },
  {
   "property": "C18",
   "status": "proved",
   "theorems": [
    "C18_context_columns_partition",
    "C18_no_context",
    "C18_unknown_context_variable"
   ],
   "note": ""
  },
  {
   "property": "C19",
   "status": "proved",
   "theorems": [
    "C19_sequential_carries_context",
    "C19_random_batch_carries_context",
    "C19_thompson_batch_carries_context",
    "C19_local_penalization_carries_context",
    "C19_optimize_succeeds",
    "C19_context_outside_domain_refuted"
   ],
   "note": "For the sequential, random, Thompson and local-penalization evaluators, any solver result; categorical domains written 0..k-1. Counterexample for a context value outside its domain."
  },
  {
   "property": "C20",
   "status": "proved",
   "theorems": [
    "C20_restricted_objective_and_gradient"
   ],
   "note": "Derivatives over the rationals (the model's number type)."
  },
  {
   "property": "C21",
   "status": "proved",
   "theorems": [
    "C21_anchors_feasible_without_context_columns",
    "C21_anchors_feasible",
    "C21_wrong_column_refuted",
    "C21_index_error_refuted"
   ],
   "note": "What holds (constraints hold without the context columns), when the expected statement follows, and two counterexamples."
  },
  {
   "property": "C22",
   "status": "proved",
   "theorems": [
    "C22_duplicates_are_the_known_rows",
    "C22_duplicates_in_general",
    "C22_zero_pending_refuted"
   ],
   "note": "Guarded equivalence, what holds in general, and the all-zero counterexample."
  },
  {
   "property": "C23",
   "status": "proved",
   "theorems": [
    "C23_anchor_points",
    "C23_lowest_acquisition",
    "C23_lowest_sample",
    "C23_random_in_order"
   ],
   "note": "For any sorting permutation (ties broken arbitrarily)."
  },
  {
   "property": "C24",
   "status": "proved",
   "theorems": [
    "C24_single_suggestion_is_new"
   ],
   "note": ""
  },
  {
   "property": "C25",
   "status": "proved",
   "theorems": [
    "C25_best_candidate_is_returned"
   ],
   "note": ""
  },
  {
   "property": "C26",
   "status": "proved",
   "theorems": [
    "C26_suggestions_of_an_object",
    "C26_random_batch_distinct_and_new",
    "C26_random_batch_succeeds",
    "C26_thompson_batch_distinct_and_new",
    "C26_size_one_overshoots_refuted"
   ],
   "note": "With the size-1 overshoot as counterexample."
  },
  {
   "property": "C27",
   "status": "proved",
   "theorems": [
    "C27_random_batch_starts_with_optimum",
    "C27_zero_optimum_dropped_refuted"
   ],
   "note": "Guarded, with the all-zero optimum as counterexample."
  },
  {
   "property": "C28",
   "status": "proved",
   "theorems": [
    "C28_suggestions_of_an_object",
    "C28_rows_of_a_run",
    "C28_batch_sizes_without_deduplication",
    "C28_local_penalization_size"
   ],
   "note": ""
  },
  {
   "property": "C29",
   "status": "proved",
   "theorems": [
    "C29_local_penalization",
    "C29_suggests_evaluated_point_refuted"
   ],
   "note": ""
  },
  {
   "property": "C30",
   "status": "proved",
   "theorems": [
    "C30_aligned_and_append_only",
    "C30_values_are_answers",
    "C30_no_processes_refuted"
   ],
   "note": "With batch_size 0 (no processes) as counterexample."
  },
  {
   "property": "C31",
   "status": "proved",
   "theorems": [
    "C31_evaluated_once_in_order"
   ],
   "note": "Sequential evaluation (one process); calls made inside child processes are covered by C39."
  },
  {
   "property": "C32",
   "status": "proved",
   "theorems": [
    "C32_stops_for_a_documented_reason",
    "C32_terminates_with_iteration_limit",
    "C32_terminates_with_time_limit",
    "C32_no_time_no_acquisition",
    "C32_no_limits_no_acquisition"
   ],
   "note": "Termination for every limit; the clock is an arbitrary function of the number of readings."
  },
  {
   "property": "C33",
   "status": "proved",
   "theorems": [
    "C33_reported_optimum"
   ],
   "note": ""
  },
  {
   "property": "C34",
   "status": "proved",
   "theorems": [
    "C34_nothing_is_lost",
    "C34_exception_leaves_X_ahead_of_Y",
    "C34_mismatch_is_permanent"
   ],
   "note": "What survives an exception, the misalignment it leaves, and that it is permanent."
  },
  {
   "property": "C35",
   "status": "proved",
   "theorems": [
    "C35_update_schedule",
    "C35_interval_zero"
   ],
   "note": "Plus the ZeroDivisionError with interval 0."
  },
  {
   "property": "C36",
   "status": "proved",
   "theorems": [
    "C36_same_trajectory_as_minus_f",
    "C36_reports_the_maximum"
   ],
   "note": ""
  },
  {
   "property": "C37",
   "status": "proved",
   "theorems": [
    "C37_suggestions_do_not_touch_the_data"
   ],
   "note": ""
  },
  {
   "property": "C38",
   "status": "proved",
   "theorems": [
    "C38_without_objective",
    "C38_with_objective",
    "C38_Y_without_X_is_ignored"
   ],
   "note": ""
  },
  {
   "property": "C39",
   "status": "proved",
   "theorems": [
    "C39_same_values_as_sequential",
    "C39_schedules_are_finite",
    "C39_every_schedule_returns_the_values",
    "C39_schedules_agree_with_the_function",
    "C39_falls_back_when_start_fails",
    "C39_fall_back_refuted"
   ],
   "note": "Functional statement and all-schedules statement over a transition system of parent and children; the documented fall-back is refuted for exceptions in children and for messages larger than the pipe."
  },
  {
   "property": "C40",
   "status": "proved",
   "theorems": [
    "C40_num_cores_is_ignored",
    "C40_processes_are_batch_size"
   ],
   "note": "The documented claim is false; the theorem says what holds instead."
  },
  {
   "property": "C41",
   "status": "proved",
   "theorems": [
    "C41_predicted_costs_positive",
    "C41_cost_gradient",
    "C41_constant_cost",
    "C41_cost_model_accumulates",
    "C41_cost_of_a_point",
    "C41_other_costs",
    "C41_cost_model_learns_every_row"
   ],
   "note": "Accumulation over all histories; positivity and gradient of the predicted cost over the reals."
  },
  {
   "property": "C42",
   "status": "proved",
   "theorems": [
    "C42_evaluation_time_refuted"
   ],
   "note": "The documented claim is false; proved for every history, including ones with exceptions."
  },
  {
   "property": "C43",
   "status": "proved",
   "theorems": [
    "C43_sequential_costs_fit",
    "C43_parallel_costs_refuted",
    "C43_parallel_costs_later_refuted"
   ],
   "note": "Sequential costs fit; parallel costs refuted for every batch other than one row."
  },
  {
   "property": "C44",
   "status": "proved",
   "theorems": [
    "C44_stats",
    "C44_maxmin",
    "C44_rejects"
   ],
   "note": "Over the reals."
  },
  {
   "property": "C45",
   "status": "proved",
   "theorems": [
    "C45_product",
    "C45_kinds",
    "C45_empty_is_neutral",
    "C45_associative"
   ],
   "note": "For every kind of argument and any number of rows and columns."
  },
  {
   "property": "C46",
   "status": "proved",
   "theorems": [
    "C46_expected_improvement",
    "C46_incumbent",
    "C46_incumbents",
    "C46_positive",
    "C46_decreasing_in_the_mean",
    "C46_increasing_in_the_deviation"
   ],
   "note": "Improper Riemann integral over the whole line, for every surrogate; the Gaussian integral is proved, not assumed."
  },
  {
   "property": "C47",
   "status": "proved",
   "theorems": [
    "C47_EI_gradient",
    "C47_MPI_gradient",
    "C47_LCB_gradient"
   ],
   "note": "For every surrogate whose own gradients are right."
  },
  {
   "property": "C48",
   "status": "proved",
   "theorems": [
    "C48_probability_of_improvement",
    "C48_between_0_and_1",
    "C48_decreasing_in_the_mean",
    "C48_in_the_deviation"
   ],
   "note": "For every surrogate."
  },
  {
   "property": "C49",
   "status": "proved",
   "theorems": [
    "C49_MPI_MCMC_is_the_average",
    "C49_LCB_MCMC_is_the_average",
    "C49_EI_MCMC_value",
    "C49_EI_MCMC_is_the_average_refuted",
    "C49_MPI_MCMC_gradient",
    "C49_LCB_MCMC_gradient",
    "C49_EI_MCMC_gradient",
    "C49_EI_MCMC_gradient_refuted"
   ],
   "note": "LCB and MPI: values and gradients. EI: exact value of the difference; average and gradient refuted."
  },
  {
   "property": "C50",
   "status": "proved",
   "theorems": [
    "C50_weighted_value",
    "C50_weighted_gradient",
    "C50_boundary",
    "C50_infeasible_region"
   ],
   "note": "Value everywhere; gradient where the neighbourhood is feasible (or infeasible); no derivative exists at the boundary."
  },
  {
   "property": "C51",
   "status": "proved",
   "theorems": [
    "C51_masked_value",
    "C51_withGradients_agrees",
    "C51_quotient_rule",
    "C51_positive_acquisitions",
    "C51_LCB_refuted",
    "C51_one_category_refuted"
   ],
   "note": "EI and MPI enter as positive acquisitions; their positivity is C46_positive and C48_between_0_and_1. LCB and one-category variables refuted. Values of cost 0 and floating-point underflow of EI to 0 are outside the model"
  },
  {
   "property": "C52",
   "status": "proved",
   "theorems": [
    "C52_continuous_spaces",
    "C52_rounding_refuted"
   ],
   "note": "holds on continuous spaces without context for optimizers that do not end worse than they start; refuted on discrete spaces"
  },
  {
   "property": "C53",
   "status": "proved",
   "theorems": [
    "C53_penalized_is_worse",
    "C53_more_points_are_worse",
    "C53_closer_is_worse",
    "C53_penaliser",
    "C53_widths_are_positive",
    "C53_gradient_without_batch",
    "C53_gradient_of_the_logarithm",
    "C53_gradient_with_a_batch_point",
    "C53_gradient_with_a_batch_point_refuted",
    "C53_same_ranking",
    "C53_improvements_are_ranked",
    "C53_same_ranking_lcb",
    "C53_same_ranking_lcb_refuted"
   ],
   "note": "Monotonicity for any number of batch points; the ranking of candidates without batch points, with the counterexample at 40; gradient without batch points; with one batch point an exact characterisation and a counterexample."
  },
  {
   "property": "C54",
   "status": "proved",
   "theorems": [
    "C54_probabilities",
    "C54_ratios",
    "C54_weights",
    "C54_single_point",
    "C54_predictions"
   ],
   "note": "For every mean, covariance and linear-algebra routine; the predicted probabilities as well."
  },
  {
   "property": "C55",
   "status": "proved",
   "theorems": [
    "C55_deviation_floor",
    "C55_deviation_exact",
    "C55_gradients",
    "C55_double_precision"
   ],
   "note": "Over the reals, for every GPy mean and variance."
  },
  {
   "property": "C56",
   "status": "proved",
   "theorems": [
    "C56_samples_kept",
    "C56_one_result_per_sample",
    "C56_after_an_exception",
    "C56_restored_after_exception_refuted"
   ],
   "note": "Every number of samples, burn-in and interval; the parameters are restored when no prediction raises; refuted after an exception."
  },
  {
   "property": "C57",
   "status": "proved",
   "theorems": [
    "C57_right_exactly_when",
    "C57_entries",
    "C57_symmetric",
    "C57_covariance_refuted"
   ],
   "note": "Exact characterisation; that the result is a covariance matrix is refuted."
  },
  {
   "property": "C58",
   "status": "proved",
   "theorems": [
    "C58_warped_columns",
    "C58_only_then",
    "C58_warped_columns_refuted"
   ],
   "note": "Both directions, for every space whose categorical variables have categories; the documented claim refuted."
  },
  {
   "property": "C59",
   "status": "proved",
   "theorems": [
    "C59_value_at_every_path",
    "C59_no_key_disappears",
    "C59_when_it_fails",
    "C59_parsed"
   ],
   "note": "Every nested configuration without duplicate keys; includes exactly when the merge raises."
  },
  {
   "property": "C60",
   "status": "proved",
   "theorems": [
    "C60_schedule",
    "C60_fractional_refuted",
    "C60_exceptions",
    "C60_schedule_refuted",
    "C60_intervals"
   ],
   "note": "Exact schedule when savers do not raise; with exceptions: nothing is lost and the saver is retried, but the schedule of later savers is refuted."
  },
  {
   "property": "C61",
   "status": "proved",
   "theorems": [
    "C61_never_runs",
    "C61_type_error",
    "C61_space_required",
    "C61_script"
   ],
   "note": "The expectation is false: proved that run never returns, and that it raises TypeError."
  },
  {
   "property": "C62",
   "status": "proved",
   "theorems": [
    "C62_accepted",
    "C62_evaluator",
    "C62_documented_types_refuted",
    "C62_penalization_refused"
   ],
   "note": "Exact characterisation of what is accepted; the documented names refuted."
  },
  {
   "property": "C63",
   "status": "proved",
   "theorems": [
    "C63_report_of_a_finished_run",
    "C63_which_spaces",
    "C63_wide_bandits_refuted",
    "C63_modular_refuted",
    "C63_before_the_first_run",
    "C63_cost_and_constraints_refuted"
   ],
   "note": "positive for BayesianOptimization on spaces where the dimension equals the number of variables; refuted for the others, for ModularBayesianOptimization and for the cost and constraints lines"
  },
  {
   "property": "C64",
   "status": "proved",
   "theorems": [
    "C64_table",
    "C64_after_every_history",
    "C64_after_an_exception"
   ],
   "note": "csv text formatting of the numbers is not modelled: a table is its header and rows of numbers"
  },
  {
   "property": "C65",
   "status": "proved",
   "theorems": [
    "C65_rosenbrock",
    "C65_powers",
    "C65_goldstein",
    "C65_alpine1",
    "C65_ackley",
    "C65_gSobol",
    "C65_branin",
    "C65_branin_documented",
    "C65_mccormick",
    "C65_mccormick_no_minimum_on_the_plane",
    "C65_sixhumpcamel",
    "C65_beale_refuted",
    "C65_dropwave_refuted",
    "C65_cosines_refuted",
    "C65_forrester",
    "C65_alpine2",
    "C65_cosines_coordinates",
    "C65_eggholder"
   ],
   "note": "exact minima over the plane or the documented box; the three refuted entries give the true minimum; branin, mccormick, camel, eggholder, alpine2 and forrester to the digits stated in the theorems; eggholder by a verified subdivision of its box"
  },
  {
   "property": "C66",
   "status": "proved",
   "theorems": [
    "C66_first_derivatives",
    "C66_second_derivatives_iff",
    "C66_second_derivatives_refuted"
   ],
   "note": "First derivatives in general; second derivatives characterised exactly and refuted."
  },
  {
   "property": "C67",
   "status": "proved",
   "theorems": [
    "C67_message_update",
    "C67_sweeps",
    "C67_marginals",
    "C67_other_points",
    "C67_moment_matching",
    "C67_gaussian_ratio"
   ],
   "note": "Real arithmetic; the update is stated as the two linear equations that determine the new marginal."
  },
  {
   "property": "C68",
   "status": "proved",
   "theorems": [
    "C68_first_derivative",
    "C68_second_derivative",
    "C68_marginal_identities",
    "C68_returned_derivatives",
    "C68_covariance_derivative"
   ],
   "note": "For fixed messages, as in the code. The covariance derivative assumes that the linear solver inverts and that the log-determinant obeys Jacobi's formula."
  },
  {
   "property": "C69",
   "status": "proved",
   "theorems": [
    "C69_pairing",
    "C69_second_order",
    "C69_lower_bound",
    "C69_no_information"
   ],
   "note": "Any number of points."
  },
  {
   "property": "C70",
   "status": "proved",
   "theorems": [
    "C70_parameters_frozen",
    "C70_first_evaluation",
    "C70_reflects_model_refuted"
   ],
   "note": "Exact characterisation for every history; the expectation itself refuted."
  },
  {
   "property": "C71",
   "status": "proved",
   "theorems": [
    "C71_proposal",
    "C71_kept_points",
    "C71_infinite"
   ],
   "note": ""
  },
  {
   "property": "C72",
   "status": "proved",
   "theorems": [
    "C72_updates"
   ],
   "note": "Any number of updates."
  },
  {
   "property": "C73",
   "status": "proved",
   "theorems": [
    "C73_copy",
    "C73_same_kind_exactly_when",
    "C73_mcmc_copy_refuted"
   ],
   "note": "Exact characterisation; GPModel_MCMC.copy refuted."
  },
  {
   "property": "C74",
   "status": "proved",
   "theorems": [
    "C74_nothing_is_acquired",
    "C74_no_suggestion",
    "C74_attribute_error",
    "C74_which_types"
   ],
   "note": "The expectation is false: stated as what happens for every history."
  },
  {
   "property": "C75",
   "status": "proved",
   "theorems": [
    "C75_line",
    "C75_objective_never_increases",
    "C75_log_file",
    "C75_unopened"
   ],
   "note": ""
  },
  {
   "property": "C76",
   "status": "proved",
   "theorems": [
    "C76_model_options",
    "C76_acquisition_options",
    "C76_verbosity_model_refuted",
    "C76_no_options_refuted"
   ],
   "note": "Tables of options in Spec/OptionsSpec.v; the options without effect refuted."
  },
  {
   "property": "C77",
   "status": "proved",
   "theorems": [
    "C77_one_value_per_point",
    "C77_its_own_value",
    "C77_noisy_alpine1_refuted"
   ],
   "note": "holds for every benchmark except alpine1 with noise, where C77_noisy_alpine1_refuted gives the matrix returned"
  },
  {
   "property": "C78",
   "status": "proved",
   "theorems": [
    "C78_models_table",
    "C78_no_time_refuted",
    "C78_order_of_files"
   ],
   "note": ""
  },
  {
   "property": "C79",
   "status": "proved",
   "theorems": [
    "C79_rows_in_domain",
    "C79_run_keeps_context",
    "C79_suggestions"
   ],
   "note": "the four evaluators of Optim.v inside the loop of BO.v; contexts must be values of their variables (C18 covers the others)"
  },
  {
   "property": "C80",
   "status": "proved",
   "theorems": [
    "C80_no_configuration_twice",
    "C80_new_rows_of_a_run",
    "C80_suggestions",
    "C80_local_penalization_refuted"
   ],
   "note": "guarded to sequential, random and thompson_sampling; refuted for local_penalization"
  },
  {
   "property": "C81",
   "status": "proved",
   "theorems": [
    "C81_at_most_all_configurations",
    "C81_iterations",
    "C81_exhausted"
   ],
   "note": ""
  },
  {
   "property": "C82",
   "status": "proved",
   "theorems": [
    "C82_nan",
    "C82_numbers",
    "C82_penalty",
    "C82_finite_agrees"
   ],
   "note": "exact finite arithmetic extended by NaN and the two infinities"
  },
  {
   "property": "C83",
   "status": "proved",
   "theorems": [
    "C83_finite",
    "C83_stats",
    "C83_maxmin"
   ],
   "note": ""
  },
  {
   "property": "C84",
   "status": "proved",
   "theorems": [
    "C84_candidates",
    "C84_first_nan",
    "C84_refuted"
   ],
   "note": "guarded to a first candidate whose value is a number; refuted otherwise"
  },
  {
   "property": "C85",
   "status": "proved",
   "theorems": [
    "C85_reported_value",
    "C85_inside",
    "C85_no_worse",
    "C85_abnormal",
    "C85_gradient_only",
    "C85_df_alone_refuted",
    "C85_refusals",
    "C85_covered"
   ],
   "note": "solvers are arguments; the clause about df without f_df is refuted (NameError)"
  },
  {
   "property": "C86",
   "status": "proved",
   "theorems": [
    "C86_supported",
    "C86_unsupported_refuted",
    "C86_evaluators",
    "C86_bandit_refuted"
   ],
   "note": "holds for continuous and discrete variables, refuted with categorical or bandit variables"
  },
  {
   "property": "C87",
   "status": "proved",
   "theorems": [
    "C87_two_points"
   ],
   "note": "Exact arithmetic; the linear solver and log-determinant are assumed right on one by one matrices."
  },
  {
   "property": "C88",
   "status": "proved",
   "theorems": [
    "C88_split",
    "C88_interval_refuted",
    "C88_refit_refuted"
   ],
   "note": "Holds when the surrogate is updated in each iteration and stable under refitting; both conditions are necessary (refuted otherwise). Runs with a time limit or with the measured time as cost are not covered."
  },
  {
   "property": "C89",
   "status": "proved",
   "theorems": [
    "C89_ask_tell_is_run",
    "C89_interval_refuted"
   ],
   "note": "Guarded statement proved for every run; refuted for model_update_interval = 2."
  },
  {
   "property": "C90",
   "status": "proved",
   "theorems": [
    "C90_no_point_twice",
    "C90_all_different",
    "C90_in_domain",
    "C90_pending_and_ignored",
    "C90_zero_vector_refuted"
   ],
   "note": "Proved for every point other than the zero vector, refuted for it."
  },
  {
   "property": "C91",
   "status": "proved",
   "theorems": [
    "C91_positive",
    "C91_covers_samples",
    "C91_not_above",
    "C91_lipschitz_constant",
    "C91_local_minimum_refuted"
   ],
   "note": "The clauses about the solver are guarded by what the solver has to satisfy; the unguarded Lipschitz claim is refuted. Exact real arithmetic."
  },
  {
   "property": "C92",
   "status": "proved",
   "theorems": [
    "C92_predictions",
    "C92_tree_order",
    "C92_fmin"
   ],
   "note": "Trees are arbitrary functions; exact real arithmetic."
  },
  {
   "property": "C93",
   "status": "proved",
   "theorems": [
    "C93_random",
    "C93_overflow",
    "C93_latin_sobol",
    "C93_one_refuted",
    "C93_latin_overflow_refuted",
    "C93_grid",
    "C93_grid_one",
    "C93_grid_subnormal_refuted"
   ],
   "note": "IEEE binary64 of Flocq; numpy's formulas for uniform and linspace. Guards and what happens outside of them are both stated."
  },
  {
   "property": "C94",
   "status": "proved",
   "theorems": [
    "C94_continuous",
    "C94_nan_refuted",
    "C94_discrete_member",
    "C94_discrete_fixes",
    "C94_discrete_nearest",
    "C94_discrete_nearest_refuted",
    "C94_categorical",
    "C94_refused",
    "C94_bandit_member",
    "C94_bandit_refused",
    "C94_bandit_fixes",
    "C94_bandit_refuted"
   ],
   "note": "IEEE binary64 of Flocq; the norm of a bandit difference is added in any order. C130 says how near the arm is."
  },
  {
   "property": "C95",
   "status": "proved",
   "theorems": [
    "C95_maxmin",
    "C95_maxmin_order",
    "C95_stats_order",
    "C95_strict_refuted"
   ],
   "note": "IEEE binary64 of Flocq; mean and deviation of 'stats' are arbitrary doubles."
  },
  {
   "property": "C96",
   "status": "proved",
   "theorems": [
    "C96_run",
    "C96_initial",
    "C96_initial_kept",
    "C96_initial_refuted",
    "C96_cost_refuted"
   ],
   "note": "Arrays of locations are references to a heap; the objective writes only to its argument. The unprotected initial rows are refuted with a witness."
  },
  {
   "property": "C97",
   "status": "proved",
   "theorems": [
    "C97_returned_arrays",
    "C97_own_array",
    "C97_own_array_refuted",
    "C97_x_opt_refuted"
   ],
   "note": "Noninterference of writes to returned arrays; sharing of the initial X and of x_opt shown by witnesses."
  },
  {
   "property": "C98",
   "status": "proved",
   "theorems": [
    "C98_dimensions",
    "C98_dimensions_of_bandits_refuted",
    "C98_discrete_grid",
    "C98_bandit_arms",
    "C98_subspace",
    "C98_old_bounds"
   ],
   "note": "The failure for bandits with wide arms is refuted with a witness."
  },
  {
   "property": "C99",
   "status": "proved",
   "theorems": [
    "C99_convergence_curves",
    "C99_convergence_raises",
    "C99_convergence_after_error_refuted",
    "C99_plotting_keeps_the_data",
    "C99_what_is_drawn",
    "C99_plotting_undoes_completion_refuted",
    "C99_three_dimensions"
   ],
   "note": "The missing plot after an aborted run and the reset record are refuted with witnesses; the drawing functions of matplotlib are arguments."
  },
  {
   "property": "C100",
   "status": "proved",
   "theorems": [
    "C100_scaled",
    "C100_constant_refuted",
    "C100_curve_is_visible",
    "C100_grid",
    "C100_contour"
   ],
   "note": "A constant acquisition is refuted for all of them. Real arithmetic; the curve and matrix handed to matplotlib."
  },
  {
   "property": "C101",
   "status": "proved",
   "theorems": [
    "C101_same_space",
    "C101_second_time_refuted",
    "C101_mistake_is_final",
    "C101_dimensionality_required",
    "C101_name_required"
   ],
   "note": "Reading twice is refuted for every non-empty configuration."
  },
  {
   "property": "C102",
   "status": "proved",
   "theorems": [
    "C102_best_guess",
    "C102_best_guess_decreasing",
    "C102_best_value",
    "C102_reshape",
    "C102_reshape_refuted",
    "C102_moments",
    "C102_moment_gradients",
    "C102_evaluate",
    "C102_evaluate_raises"
   ],
   "note": "The shapes reshape does not handle are refuted for all of them. Real arithmetic; the GPy model is a function."
  },
  {
   "property": "C103",
   "status": "proved",
   "theorems": [
    "C103_average",
    "C103_gradient",
    "C103_library_model_refuted"
   ],
   "note": "That the library's own model can be used is refuted for all samples and kernels."
  },
  {
   "property": "C104",
   "status": "proved",
   "theorems": [
    "C104_files_differ",
    "C104_moments_differ",
    "C104_files_differ_refuted",
    "C104_loads",
    "C104_relative_path_refuted",
    "C104_refused",
    "C104_missing_directory",
    "C104_language",
    "C104_function_name"
   ],
   "note": "Collisions between experiments and relative paths are refuted. Files and directories are functions of paths; '..' and links are outside the model."
  },
  {
   "property": "C105",
   "status": "proved",
   "theorems": [
    "C105_global_optimum",
    "C105_budget"
   ],
   "note": "Built on C30, C32, C33, C79, C80."
  },
  {
   "property": "C106",
   "status": "proved",
   "theorems": [
    "C106_no_worse_than_known",
    "C106_runs_improve"
   ],
   "note": "Built on C30 and C33."
  },
  {
   "property": "C107",
   "status": "proved",
   "theorems": [
    "C107_inside",
    "C107_none_lost",
    "C107_walkers",
    "C107_metropolis",
    "C107_constraints_refuted",
    "C107_domain_refuted"
   ],
   "note": "emcee is any accept-reject sampler; Metropolis samplers are shown to be such. That points satisfy constraints and lie on the grid of discrete variables is refuted."
  },
  {
   "property": "C108",
   "status": "proved",
   "theorems": [
    "C108_model",
    "C108_model_builds",
    "C108_model_types_refuted",
    "C108_acquisition",
    "C108_acquisition_builds",
    "C108_acquisition_types_refuted",
    "C108_mcmc_refuted",
    "C108_evaluator",
    "C108_evaluator_builds",
    "C108_defaults",
    "C108_check_stop",
    "C108_no_limits",
    "C108_bad_limit",
    "C108_time_limit",
    "C108_minutes_refuted"
   ],
   "note": "Exact characterisation per section; that every documented type can be built is refuted for all configurations that name another one."
  },
  {
   "property": "C109",
   "status": "proved",
   "theorems": [
    "C109_created",
    "C109_one_meaning",
    "C109_failed",
    "C109_no_section",
    "C109_defaults",
    "C109_paths",
    "C109_driver_ignores_the_section"
   ],
   "note": "Exact characterisation in both directions; that the section has an effect on a run is false, for every configuration."
  },
  {
   "property": "C110",
   "status": "proved",
   "theorems": [
    "C110_one_number",
    "C110_columns",
    "C110_refused",
    "C110_refused_in_parallel",
    "C110_one_value_per_point_refuted",
    "C110_own_value_refuted"
   ],
   "note": "Exact characterisation for one process; with several processes for answers of one number, columns of k >= 2 values, and answers that are never columns. That there is one value per point is refuted."
  },
  {
   "property": "C111",
   "status": "proved",
   "theorems": [
    "C111_each_location",
    "C111_as_functions",
    "C111_refused",
    "C111_single_row",
    "C111_one_coordinate",
    "C111_single_rows_refuted",
    "C111_column_with_matrix_refuted"
   ],
   "note": "Induction over the expression, with numpy's broadcasting modelled; refinement to the constraints of Model/Space.v, so C08 and the claims about constrained spaces apply. Counterexamples for expressions with single rows and for a column combined with the matrix. The parser of Python is not modelled."
  },
  {
   "property": "C112",
   "status": "proved",
   "theorems": [
    "C112_equal_rows_stop",
    "C112_stop_means_close",
    "C112_close_means_stop",
    "C112_nan_rows",
    "C112_no_threshold",
    "C112_infinite_threshold",
    "C112_different_rows_stop_refuted",
    "C112_large_threshold_refuted",
    "C112_order_refuted",
    "C112_budget",
    "C112_endless",
    "C112_no_time",
    "C112_time_limit",
    "C112_time_left"
   ],
   "note": "Flocq's binary64; np.sum is any binary tree of additions over any permutation. Error bounds by induction over the tree; the loop by induction over its passes. Counterexamples for underflow, overflow and the order of additions."
  },
  {
   "property": "C113",
   "status": "proved",
   "theorems": [
    "C113_one_process",
    "C113_processes",
    "C113_draws",
    "C113_draws_processes",
    "C113_fresh",
    "C113_fresh_refuted_in_batch",
    "C113_fresh_refuted_next_batch"
   ],
   "note": "Fork semantics of multiprocessing: a child starts with a copy of the parent's state. Sequential freshness by induction over the calls; the loss of freshness with several processes is proved for every stream and batch."
  },
  {
   "property": "C114",
   "status": "proved",
   "theorems": [
    "C114_warped",
    "C114_warped_options_refuted",
    "C114_input_warped",
    "C114_warped_columns",
    "C114_input_warped_noise_refuted",
    "C114_warping_range",
    "C114_warping_range_exactly_when",
    "C114_warping_range_refuted",
    "C114_mcmc",
    "C114_mcmc_samples",
    "C114_mcmc_stale_refuted",
    "C114_forest",
    "C114_forest_warm_start_refuted"
   ],
   "note": "GPy and scikit-learn are abstract; for the warm-started forest scikit-learn's documented rule (no new trees without a larger n_estimators) is a hypothesis. Induction over the updates; column bounds by induction over the rows."
  },
  {
   "property": "C115",
   "status": "proved",
   "theorems": [
    "C115_values",
    "C115_gradients",
    "C115_weighted",
    "C115_costs",
    "C115_integrated",
    "C115_penalised",
    "C115_penalised_gradient",
    "C115_penalised_gradient_refuted",
    "C115_penalised_gradient_mixed_refuted",
    "C115_anchors",
    "C115_flat_cost_one",
    "C115_flat_cost_refuted"
   ],
   "note": "numpy broadcasting over real numbers; the gradients of the integrated acquisitions are covered row by row only (C49). Refinement of the one-row formulas of Model/AcqR.v, by induction over the rows."
  },
  {
   "property": "C116",
   "status": "proved",
   "theorems": [
    "C116_values",
    "C116_points",
    "C116_by_type"
   ],
   "note": "Both directions between the listed values and rounding; counting by induction over the variables."
  },
  {
   "property": "C117",
   "status": "proved",
   "theorems": [
    "C117_curve",
    "C117_contour",
    "C117_ends",
    "C117_marks_visible"
   ],
   "note": "Over real numbers; the calls of matplotlib are their arguments. The default bounds and minima are those of the nine functions derived from function2d."
  },
  {
   "property": "C118",
   "status": "proved",
   "theorems": [
    "C118_duplicates",
    "C118_numbers",
    "C118_nan_refuted",
    "C118_zeros_refuted",
    "C118_exact"
   ],
   "note": "IEEE binary64 with Flocq; refinement of the manager of Model/Optim.v on representable numbers; the two violations are proved for all inputs."
  },
  {
   "property": "C119",
   "status": "proved",
   "theorems": [
    "C119_in_domain",
    "C119_idempotent",
    "C119_fixes",
    "C119_exact",
    "C119_exact_refuted",
    "C119_nan_refuted"
   ],
   "note": "IEEE binary64 with Flocq; bandit variables (alone in their space) are in C94. Refinement of round_optimum of Model/Space.v where the differences are exact, with a witness where they are not."
  },
  {
   "property": "C120",
   "status": "proved",
   "theorems": [
    "C120_margin",
    "C120_decided",
    "C120_difference",
    "C120_nan",
    "C120_rounding_refuted",
    "C120_overflow_refuted"
   ],
   "note": "IEEE binary64 with Flocq; running error analysis over expressions; ** and transcendental functions, whose rounding IEEE 754 does not prescribe, are outside."
  },
  {
   "property": "C121",
   "status": "proved",
   "theorems": [
    "C121_copies",
    "C121_views",
    "C121_exactly_when",
    "C121_rows",
    "C121_start"
   ],
   "note": "Both behaviours of the library are covered: whether model[:] is a view or a copy is a parameter of the model, since GPy is not part of the repository."
  },
  {
   "property": "C122",
   "status": "proved",
   "theorems": [
    "C122_gp",
    "C122_exact_feval",
    "C122_mcmc",
    "C122_refuted"
   ],
   "note": "GPy is not part of the repository: labels, sizes and fixed marks of parameters are arguments, and whether the flat list of names leaves out fixed parameters is a parameter of the model (in paramz it does)."
  },
  {
   "property": "C123",
   "status": "proved",
   "theorems": [
    "C123_outputs",
    "C123_for_good",
    "C123_noise",
    "C123_refuted"
   ],
   "note": "np.log is any function with its special values; the order of np.sum is left open."
  },
  {
   "property": "C124",
   "status": "proved",
   "theorems": [
    "C124_lcb",
    "C124_mpi",
    "C124_ei",
    "C124_plateau",
    "C124_weighting",
    "C124_preference",
    "C124_improving",
    "C124_two_versions",
    "C124_library",
    "C124_refuted",
    "C124_refuted_nan",
    "C124_refuted_versions"
   ],
   "note": "np.exp and scipy's erfc are any functions with the properties of libm_like, which correctly rounded ones have (C124_library). One location at a time; Model/Arrays.v has whole arrays."
  },
  {
   "property": "C125",
   "status": "proved",
   "theorems": [
    "C125_starts",
    "C125_pick",
    "C125_suggestion",
    "C125_feasible",
    "C125_refuted",
    "C125_refuted_nan"
   ],
   "note": "C23, C25 and C51 say this of exact values; designs, contexts and duplicates are modelled there. That the local optimizer returns nothing worse than its start is a hypothesis where it is used: rounding to the domain may break it (C52)."
  },
  {
   "property": "C126",
   "status": "proved",
   "theorems": [
    "C126_ei",
    "C126_mpi",
    "C126_lcb",
    "C126_floor",
    "C126_library",
    "C126_refuted"
   ],
   "note": "The accuracy of the library's exp and erfc is a hypothesis; a correctly rounded library is shown to have it and to exist. C124 says what holds without it."
  },
  {
   "property": "C127",
   "status": "proved",
   "theorems": [
    "C127_radii",
    "C127_constants",
    "C127_no_nan",
    "C127_penalty",
    "C127_every_point",
    "C127_order",
    "C127_plateau",
    "C127_pending",
    "C127_value",
    "C127_one",
    "C127_library",
    "C127_refuted"
   ],
   "note": "The signs of the library's functions are a hypothesis; correctly rounded ones are shown to have them and to exist. C53 is the same code on real numbers."
  },
  {
   "property": "C128",
   "status": "proved",
   "theorems": [
    "C128_random",
    "C128_thompson",
    "C128_thompson_refuted"
   ],
   "note": "The guarded form (twice as many) and the witness settle the Thompson half."
  },
  {
   "property": "C129",
   "status": "proved",
   "theorems": [
    "C129_order",
    "C129_unit",
    "C129_zero",
    "C129_mean",
    "C129_equal",
    "C129_equal_refuted",
    "C129_overflow",
    "C129_underflow"
   ],
   "note": "Overflow and underflow are stated for every list that meets them, with an example of each. C44 is the same code on exact numbers; C95 takes mean and deviation as given."
  },
  {
   "property": "C130",
   "status": "proved",
   "theorems": [
    "C130_distance",
    "C130_nearest",
    "C130_chosen",
    "C130_nearest_refuted"
   ],
   "note": "IEEE binary64 of Flocq. That an arm is kept is C94."
  },
  {
   "property": "C131",
   "status": "proved",
   "theorems": [
    "C131_stuck",
    "C131_early_is_final",
    "C131_initial",
    "C131_batches",
    "C131_repeating_refuted"
   ],
   "note": "The refuted reading is not part of what the code promises; its witness is C131_repeating_refuted."
  },
  {
   "property": "C132",
   "status": "proved",
   "theorems": [
    "C132_encoding",
    "C132_decoding",
    "C132_design",
    "C132_suggestion",
    "C132_run",
    "C132_run_ends",
    "C132_nan_refuted"
   ],
   "note": "Contexts and constraints are in the exact model (C19, C79); the guarded form and the witness for NaN settle the statement."
  },
  {
   "property": "C133",
   "status": "proved",
   "theorems": [
    "C133_negated",
    "C133_as_they_are",
    "C133_largest_refuted",
    "C133_without_objective"
   ],
   "note": "The reading that Y holds values of f is refuted by C133_largest_refuted; C133_as_they_are says what happens then."
  },
  {
   "property": "C134",
   "status": "proved",
   "theorems": [
    "C134_report",
    "C134_nan",
    "C134_maximize",
    "C134_agrees"
   ],
   "note": "Which of two equal zeros ndarray.min returns is not claimed."
  },
  {
   "property": "C135",
   "status": "proved",
   "theorems": [
    "C135_evaluations",
    "C135_full_budget",
    "C135_minimum",
    "C135_maximum",
    "C135_ends"
   ],
   "note": "Composes C112, C132 and C134; contexts, constraints, costs and batches are in the exact model."
  },
  {
   "property": "C136",
   "status": "proved",
   "theorems": [
    "C136_ei",
    "C136_ei_no_jitter",
    "C136_mpi",
    "C136_lcb",
    "C136_one",
    "C136_nan",
    "C136_overflow_refuted"
   ],
   "note": "Values only; gradients of the integrated acquisitions are in the exact model (C49). The overflow of the sum is C136_overflow_refuted."
  },
  {
   "property": "C137",
   "status": "proved",
   "theorems": [
    "C137_alone",
    "C137_order",
    "C137_forest",
    "C137_gp",
    "C137_warm_refuted"
   ],
   "note": "Each optimizer draws its own random numbers in the model; calls are not nested in one another. The violation is C137_warm_refuted with C137_gp."
  },
  {
   "property": "C138",
   "status": "proved",
   "theorems": [
    "C138_rows",
    "C138_margin",
    "C138_first",
    "C138_ends",
    "C138_never",
    "C138_hangs_refuted"
   ],
   "note": "Spaces without bandit variables; constraints use + - * / abs sqrt and unary minus. The violation is C138_hangs_refuted."
  },
  {
   "property": "C139",
   "status": "proved",
   "theorems": [
    "C139_suggestion",
    "C139_run",
    "C139_continuous",
    "C139_rounding_refuted",
    "C139_plateau_refuted"
   ],
   "note": "No bandit variables, no context, sequential evaluation. The violations are C139_rounding_refuted and C139_plateau_refuted."
  },
  {
   "property": "C140",
   "status": "proved",
   "theorems": [
    "C140_silent",
    "C140_workers",
    "C140_data",
    "C140_refused",
    "C140_limit_refuted",
    "C140_endless_refuted",
    "C140_one",
    "C140_context_refuted",
    "C140_waits"
   ],
   "note": "The value of the objective does not depend on what the nested call returns; nested calls of run_optimization are not modelled. The violations are C140_limit_refuted, C140_endless_refuted and C140_context_refuted; C140_refused says which calls fail."
  },
  {
   "property": "C141",
   "status": "proved",
   "theorems": [
    "C141_before",
    "C141_frozen",
    "C141_reports",
    "C141_every_iteration_refuted",
    "C141_in_time_refuted",
    "C141_stuck_refuted",
    "C141_earlier"
   ],
   "note": "The violations are C141_every_iteration_refuted, C141_in_time_refuted and C141_stuck_refuted; loggers are taken to have different files, and every point the same number of inputs."
  }
 ]
}