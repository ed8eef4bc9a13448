(** C41 (predicted costs), C46-C50, C53, C55: acquisition functions.
    Specification: Spec/RSpec.v (derivatives, Gaussian expectations), Spec/AcqSpec.v.  Model: Model/AcqR.v. *)
From Coq Require Import Reals Lra List Bool.
From Coquelicot Require Import Coquelicot.
From Verif.Model Require Import AcqR.
From Verif.Spec Require Import RSpec AcqSpec.
From Verif.Proof Require Import GaussP AcqP AcqG AcqM LPP LPRank TightP AcqEx.
Import ListNotations.
Local Open Scope R_scope.

(** ---------------------------------------------------------------- C41 *)
Theorem C41_predicted_costs_positive : forall M x, 0 < fst (cost_gp_withGradients M x) /\ cost_gp M x = fst (cost_gp_withGradients M x).
Proof. exact cost_positive. Qed.
Print Assumptions C41_predicted_costs_positive.
Theorem C41_cost_gradient : forall g x, gradient (g_mean g) x (g_dmean g x) ->
  gradient (fun y => fst (cost_gp_withGradients (GPModel g) y)) x (snd (cost_gp_withGradients (GPModel g) x)).
Proof. exact cost_gradient. Qed.
Print Assumptions C41_cost_gradient.
Theorem C41_constant_cost : forall x, fst (constant_cost x) = 1 /\ gradient (fun y => fst (constant_cost y)) x (snd (constant_cost x)).
Proof. exact constant_cost_gradient. Qed.
Print Assumptions C41_constant_cost.
Example C41_nonvacuous_gradient : gradient (g_mean line) [5] (g_dmean line [5]).
Proof. apply line_smooth. Qed.

(** ---------------------------------------------------------------- C46 *)
(** For every surrogate, location and jitter, with predicted mean [m] and deviation [s]: the acquisition is the integral over
    the whole line of max(fmin - jitter - y, 0) times the Gaussian density.  Deviations below 1e-10 count as 1e-10. *)
Theorem C46_expected_improvement : forall j M x m s, predict M x = (m, s) ->
  expectation m (Rmax s (/ 10 ^ 10)) (improvement (get_fmin M - j)) (compute_acq (EI j M) x).
Proof. exact EI_expectation. Qed.
Print Assumptions C46_expected_improvement.
(** The incumbent is the least mean of the surrogate at the data; with several hyper-parameter samples, each has its own. *)
Theorem C46_incumbent : forall g, g_X g <> [] -> (exists x, In x (g_X g) /\ get_fmin (GPModel g) = g_mean g x) /\
  forall x, In x (g_X g) -> get_fmin (GPModel g) <= g_mean g x.
Proof. exact incumbent. Qed.
Print Assumptions C46_incumbent.
Theorem C46_incumbents : forall gs, List.Forall (fun g => g_X g <> []) gs ->
  List.Forall2 (fun g f => (exists x, In x (g_X g) /\ f = g_mean g x) /\ forall x, In x (g_X g) -> f <= g_mean g x) gs (get_fmins (GPModel_MCMC gs)).
Proof. exact incumbents. Qed.
Print Assumptions C46_incumbents.
Theorem C46_positive : forall j M x, 0 < compute_acq (EI j M) x.
Proof. exact EI_positive. Qed.
Print Assumptions C46_positive.
Theorem C46_decreasing_in_the_mean : forall j M x M' x' m m' s,
  get_fmin M' = get_fmin M -> predict M x = (m, s) -> predict M' x' = (m', s) -> m < m' ->
  compute_acq (EI j M') x' < compute_acq (EI j M) x.
Proof. exact EI_decreasing_mean. Qed.
Print Assumptions C46_decreasing_in_the_mean.
Theorem C46_increasing_in_the_deviation : forall j M x M' x' m s s',
  get_fmin M' = get_fmin M -> predict M x = (m, s) -> predict M' x' = (m, s') -> / 10 ^ 10 <= s -> s < s' ->
  compute_acq (EI j M) x < compute_acq (EI j M') x'.
Proof. exact EI_increasing_deviation. Qed.
Print Assumptions C46_increasing_in_the_deviation.
Example C46_nonvacuous : predict (GPModel line) [2] = (2, sqrt 1) /\ predict (GPModel line) [5] = (5, sqrt 1) /\ get_fmin (GPModel line) = 0.
Proof.
  destruct (line_smooth 2) as (_ & _ & L). cbn [predict get_fmin GPModel]. unfold gp_predict, gp_fmin. cbn [g_var line] in L |- *. fold e10 in L.
  rewrite clip_id by lra. repeat split.
Qed.
(** two points with the same mean and different deviations *)
Example C46_nonvacuous_deviation : exists M, predict M [1] = (0, 1) /\ predict M [4] = (0, 2) /\ get_fmin M = 0 /\ / 10 ^ 10 <= 1 /\
  compute_acq (EI 0 M) [1] < compute_acq (EI 0 M) [4].
Proof.
  set (g := mk_gpy (fun _ => 0) (fun x => coord x 0) (fun x => map (fun _ => 0) x) (fun _ => [1]) [[7]]).
  assert (P : / 10 ^ 10 < 1) by lra.
  assert (P1 : predict (GPModel g) [1] = (0, 1)).
  { cbn [predict GPModel]. unfold gp_predict. cbn. rewrite clip_id by (unfold e10; lra). now rewrite sqrt_1. }
  assert (P2 : predict (GPModel g) [4] = (0, 2)).
  { cbn [predict GPModel]. unfold gp_predict. cbn. rewrite clip_id by (unfold e10; lra). f_equal. replace 4 with (2 * 2) by ring. now rewrite sqrt_square by lra. }
  exists (GPModel g). split; [exact P1|]. split; [exact P2|]. split; [reflexivity|]. split; [lra|].
  apply (C46_increasing_in_the_deviation 0 _ _ _ _ 0 1 2 eq_refl P1 P2); lra.
Qed.

(** ---------------------------------------------------------------- C47 *)
Theorem C47_EI_gradient : forall j M x, honest M x -> / 10 ^ 10 < snd (predict M x) ->
  fst (compute_acq_withGradients (EI j M) x) = compute_acq (EI j M) x /\
  gradient (compute_acq (EI j M)) x (snd (compute_acq_withGradients (EI j M) x)).
Proof. exact EI_gradient. Qed.
Print Assumptions C47_EI_gradient.
Theorem C47_MPI_gradient : forall j M x, honest M x -> / 10 ^ 10 < snd (predict M x) ->
  fst (compute_acq_withGradients (MPI j M) x) = compute_acq (MPI j M) x /\
  gradient (compute_acq (MPI j M)) x (snd (compute_acq_withGradients (MPI j M) x)).
Proof. exact MPI_gradient. Qed.
Print Assumptions C47_MPI_gradient.
Theorem C47_LCB_gradient : forall w M x, honest M x ->
  fst (compute_acq_withGradients (LCB w M) x) = compute_acq (LCB w M) x /\
  gradient (compute_acq (LCB w M)) x (snd (compute_acq_withGradients (LCB w M) x)).
Proof. exact LCB_gradient. Qed.
Print Assumptions C47_LCB_gradient.
Example C47_nonvacuous : honest (GPModel line) [7] /\ / 10 ^ 10 < snd (predict (GPModel line) [7]).
Proof. exact (line_honest 7). Qed.

(** ---------------------------------------------------------------- C48 *)
Theorem C48_probability_of_improvement : forall j M x m s, predict M x = (m, s) ->
  probability_le m (Rmax s (/ 10 ^ 10)) (get_fmin M - j) (compute_acq (MPI j M) x).
Proof. exact MPI_probability. Qed.
Print Assumptions C48_probability_of_improvement.
Theorem C48_between_0_and_1 : forall j M x, 0 < compute_acq (MPI j M) x < 1.
Proof. exact MPI_range. Qed.
Print Assumptions C48_between_0_and_1.
Theorem C48_decreasing_in_the_mean : forall j M x M' x' m m' s,
  get_fmin M' = get_fmin M -> predict M x = (m, s) -> predict M' x' = (m', s) -> m < m' ->
  compute_acq (MPI j M') x' < compute_acq (MPI j M) x.
Proof. exact MPI_decreasing_mean. Qed.
Print Assumptions C48_decreasing_in_the_mean.
Theorem C48_in_the_deviation : forall j M x M' x' m s s',
  get_fmin M' = get_fmin M -> predict M x = (m, s) -> predict M' x' = (m, s') -> / 10 ^ 10 <= s -> s < s' ->
  (m < get_fmin M - j -> compute_acq (MPI j M') x' < compute_acq (MPI j M) x) /\
  (get_fmin M - j < m -> compute_acq (MPI j M) x < compute_acq (MPI j M') x') /\
  (m = get_fmin M - j -> compute_acq (MPI j M) x = compute_acq (MPI j M') x').
Proof. exact MPI_deviation. Qed.
Print Assumptions C48_in_the_deviation.
Example C48_nonvacuous : predict (mk_model (fun _ => (2, 1)) (fun _ => (2, 1, [], [])) 0) [] = (2, 1) /\
  predict (mk_model (fun _ => (2, 3)) (fun _ => (2, 3, [], [])) 0) [] = (2, 3) /\ / 10 ^ 10 <= 1 < 3.
Proof. split; [reflexivity|]. split; [reflexivity|]. destruct (line_smooth 0) as (_ & _ & L). cbn [g_var line] in L. lra. Qed.

(** ---------------------------------------------------------------- C49 *)
Theorem C49_MPI_MCMC_is_the_average : forall j gs x,
  MPI_MCMC j (GPModel_MCMC gs) x = average (map (fun g => compute_acq (MPI j (GPModel g)) x) gs).
Proof. exact MPI_MCMC_average. Qed.
Print Assumptions C49_MPI_MCMC_is_the_average.
Theorem C49_LCB_MCMC_is_the_average : forall w gs x,
  LCB_MCMC w (GPModel_MCMC gs) x = average (map (fun g => compute_acq (LCB w (GPModel g)) x) gs).
Proof. exact LCB_MCMC_average. Qed.
Print Assumptions C49_LCB_MCMC_is_the_average.
(** EI: the value is off by twice the jitter times the average probability of improvement... *)
Theorem C49_EI_MCMC_value : forall j gs x, EI_MCMC j (GPModel_MCMC gs) x =
  average (map (fun g => compute_acq (EI j (GPModel g)) x) gs) + 2 * j * average (map (fun g => compute_acq (MPI j (GPModel g)) x) gs).
Proof. exact EI_MCMC_value. Qed.
Print Assumptions C49_EI_MCMC_value.
(** ...so it is the average for no list of samples, no location and no jitter other than 0. *)
Theorem C49_EI_MCMC_is_the_average_refuted : forall j gs x, gs <> [] -> j <> 0 ->
  EI_MCMC j (GPModel_MCMC gs) x <> average (map (fun g => compute_acq (EI j (GPModel g)) x) gs).
Proof. exact EI_MCMC_differs. Qed.
Print Assumptions C49_EI_MCMC_is_the_average_refuted.
Theorem C49_MPI_MCMC_gradient : forall j gs x, gs <> [] -> (forall g, In g gs -> smooth x g) ->
  exists v, MPI_MCMC_withGradients j (GPModel_MCMC gs) x = Some (MPI_MCMC j (GPModel_MCMC gs) x, v) /\
            gradient (MPI_MCMC j (GPModel_MCMC gs)) x v.
Proof. exact MPI_MCMC_gradient. Qed.
Print Assumptions C49_MPI_MCMC_gradient.
Theorem C49_LCB_MCMC_gradient : forall w gs x, gs <> [] -> (forall g, In g gs -> smooth x g) ->
  exists v, LCB_MCMC_withGradients w (GPModel_MCMC gs) x = Some (LCB_MCMC w (GPModel_MCMC gs) x, v) /\
            gradient (LCB_MCMC w (GPModel_MCMC gs)) x v.
Proof. exact LCB_MCMC_gradient. Qed.
Print Assumptions C49_LCB_MCMC_gradient.
(** The EI_MCMC gradient is the derivative of the EI_MCMC value exactly where jitter times the MPI_MCMC gradient vanishes. *)
Theorem C49_EI_MCMC_gradient : forall j gs x, gs <> [] -> (forall g, In g gs -> smooth x g) ->
  exists v w, EI_MCMC_withGradients j (GPModel_MCMC gs) x = Some (EI_MCMC j (GPModel_MCMC gs) x, v) /\
    gradient (MPI_MCMC j (GPModel_MCMC gs)) x w /\
    (gradient (EI_MCMC j (GPModel_MCMC gs)) x v <-> forall i, (i < length x)%nat -> j * coord w i = 0).
Proof. exact EI_MCMC_gradient_iff. Qed.
Print Assumptions C49_EI_MCMC_gradient.
Theorem C49_EI_MCMC_gradient_refuted : forall j a, j <> 0 ->
  exists v, EI_MCMC_withGradients j (GPModel_MCMC [line]) [a] = Some (EI_MCMC j (GPModel_MCMC [line]) [a], v) /\
            ~ gradient (EI_MCMC j (GPModel_MCMC [line])) [a] v.
Proof. exact EI_MCMC_gradient_wrong. Qed.
Print Assumptions C49_EI_MCMC_gradient_refuted.
Example C49_nonvacuous : forall g, In g [line; line] -> smooth [4] g.
Proof. intros g [<-|[<-|[]]]; apply line_smooth. Qed.

(** ---------------------------------------------------------------- C50 *)
Theorem C50_weighted_value : forall A c ok x, fst (compute_acq_withGradients A x) = compute_acq A x ->
  fst (acquisition_function_withGradients A c ok x) = acquisition_function A c ok x /\
  (ok x = true -> acquisition_function A c ok x = - (compute_acq A x / fst (c x))) /\
  (ok x = false -> acquisition_function A c ok x = 0 /\ forall i, coord (snd (acquisition_function_withGradients A c ok x)) i = 0).
Proof. exact weighted_value. Qed.
Print Assumptions C50_weighted_value.
Theorem C50_weighted_gradient : forall A c ok x,
  fst (compute_acq_withGradients A x) = compute_acq A x ->
  gradient (compute_acq A) x (snd (compute_acq_withGradients A x)) ->
  gradient (fun y => fst (c y)) x (snd (c x)) -> fst (c x) <> 0 ->
  near (fun y => ok y = true) x ->
  gradient (acquisition_function A c ok) x (snd (acquisition_function_withGradients A c ok x)).
Proof. exact weighted_gradient. Qed.
Print Assumptions C50_weighted_gradient.
(** At the boundary of the feasible region no number is the derivative. *)
Theorem C50_boundary : forall A c ok x i, (i < length x)%nat -> ok x = true -> compute_acq A x <> 0 -> fst (c x) <> 0 ->
  (forall eps, 0 < eps -> exists t, Rabs (t - coord x i) < eps /\ ok (put x i t) = false) ->
  forall d, ~ partial (acquisition_function A c ok) x i d.
Proof. exact no_derivative_at_boundary. Qed.
Print Assumptions C50_boundary.
Theorem C50_infeasible_region : forall A c ok x,
  length (snd (compute_acq_withGradients A x)) = length x -> length (snd (c x)) = length x -> ok x = false ->
  near (fun y => ok y = false) x -> gradient (acquisition_function A c ok) x (snd (acquisition_function_withGradients A c ok x)).
Proof. exact weighted_gradient_infeasible. Qed.
Print Assumptions C50_infeasible_region.
(** EI on [line], with the predicted cost exp(x), and every location feasible. *)
Example C50_nonvacuous : gradient (acquisition_function (EI 0 (GPModel line)) (cost_gp_withGradients (GPModel line)) (fun _ => true)) [2]
  (snd (acquisition_function_withGradients (EI 0 (GPModel line)) (cost_gp_withGradients (GPModel line)) (fun _ => true) [2])).
Proof.
  destruct (line_honest 2) as [H L]. destruct (EI_gradient 0 (GPModel line) [2] H L) as [V G].
  apply weighted_gradient; [exact V|exact G|apply cost_gradient; apply line_smooth|apply Rgt_not_eq; apply cost_positive|].
  intros i I. exists (mkposreal 1 Rlt_0_1). reflexivity.
Qed.

(** ---------------------------------------------------------------- C53 *)
Theorem C53_penalized_is_worse : forall t U M L Min ys x, ys <> [] ->
  penalized t U (update_batches M None L Min) x < penalized t U (update_batches M (Some ys) L Min) x.
Proof. exact penalized_worse. Qed.
Print Assumptions C53_penalized_is_worse.
Theorem C53_more_points_are_worse : forall t U M L Min xs ys x, ys <> [] ->
  penalized t U (update_batches M (Some xs) L Min) x < penalized t U (update_batches M (Some (xs ++ ys)) L Min) x.
Proof. exact more_points_worse. Qed.
Print Assumptions C53_more_points_are_worse.
Theorem C53_closer_is_worse : forall t U x0 r s x y, 0 < s -> u_value U x = u_value U y -> distance x x0 < distance y x0 ->
  penalized t U [(x0, r, s)] y < penalized t U [(x0, r, s)] x.
Proof. exact closer_is_worse. Qed.
Print Assumptions C53_closer_is_worse.
(** The penaliser of a batch point is the log of the probability that a Gaussian whose mean is the gap between the predicted mean there and
    the minimum is at most L times the distance; its variance is the predicted deviation. *)
Theorem C53_penaliser : forall t U M L Min xs x, 0 < L -> exists Ps,
  List.Forall2 (fun x0 P => probability_le (fst (predict M x0) - Min) (sqrt (Rmax (snd (predict M x0)) (/ 10 ^ 16))) (L * distance x x0) P) xs Ps /\
  penalized t U (update_batches M (Some xs) L Min) x = penalized t U (update_batches M None L Min) x - sumR (map ln Ps).
Proof. exact penalisers. Qed.
Print Assumptions C53_penaliser.
(** The widths used are positive: the estimated Lipschitz constant is at least 1e-7. *)
Theorem C53_widths_are_positive : forall M f Min x0, / 10 ^ 7 <= estimate_L f /\ 0 < snd (hammer_precompute M (estimate_L f) Min x0).
Proof.
  intros M f Min x0. pose proof (lipschitz_positive f). split; [assumption|]. apply widths_positive.
  assert (0 < / 10 ^ 7) by (apply Rinv_0_lt_compat, pow_lt; lra). lra.
Qed.
Print Assumptions C53_widths_are_positive.
Theorem C53_gradient_without_batch : forall t U x, gradient (u_value U) x (u_grad U x) ->
  t = TOther \/ (t = TSoftplus /\ - u_value U x < 40) -> gradient (penalized t U []) x (d_penalized t U [] x).
Proof. exact gradient_without_batch. Qed.
Print Assumptions C53_gradient_without_batch.
(** The default transform: the derivative is the returned vector times f/(f + 1e-50), [f] minus the wrapped acquisition. *)
Theorem C53_gradient_of_the_logarithm : forall U x, gradient (u_value U) x (u_grad U x) -> u_value U x < 0 ->
  gradient (penalized TNone U []) x (map (fun d => - u_value U x / (- u_value U x + / 10 ^ 50) * d) (d_penalized TNone U [] x)).
Proof. exact gradient_log. Qed.
Print Assumptions C53_gradient_of_the_logarithm.
(** With a batch point: right exactly when every coordinate of x is that of the batch point plus 1. *)
Theorem C53_gradient_with_a_batch_point : forall t U h x, gradient (u_value U) x (u_grad U x) ->
  t = TOther \/ (t = TSoftplus /\ - u_value U x < 40) -> regular x h ->
  (gradient (penalized t U [h]) x (d_penalized t U [h] x) <-> forall i, (i < length x)%nat -> coord x i - coord (centre h) i = 1).
Proof. exact gradient_one_point. Qed.
Print Assumptions C53_gradient_with_a_batch_point.
Theorem C53_gradient_with_a_batch_point_refuted : gradient (u_value flat) [3] (u_grad flat [3]) /\ regular [3] ([0], 3, 1) /\
  ~ gradient (penalized TSoftplus flat [([0], 3, 1)]) [3] (d_penalized TSoftplus flat [([0], 3, 1)] [3]).
Proof.
  split; [apply flat_gradient|]. split; [apply regular_example|]. intros G.
  assert (T : TSoftplus = TOther \/ TSoftplus = TSoftplus /\ - u_value flat [3] < 40) by (right; split; [reflexivity|cbn; lra]).
  pose proof (proj1 (gradient_one_point TSoftplus flat ([0], 3, 1) [3] (flat_gradient 3) T regular_example) G) as Q.
  specialize (Q 0%nat ltac:(cbn; auto)). cbn in Q. lra.
Qed.
Print Assumptions C53_gradient_with_a_batch_point_refuted.

(** Without batch points a candidate is preferred exactly when the wrapped acquisition prefers it: expected and probable improvement, with
    any positive cost and any constraints... *)
Theorem C53_same_ranking : forall U x y, u_value U x <= 0 -> u_value U y <= 0 ->
  (penalized (lp_transform false TNone) U [] x < penalized (lp_transform false TNone) U [] y <-> u_value U x < u_value U y).
Proof. exact ranking_of_the_logarithm. Qed.
Print Assumptions C53_same_ranking.
Theorem C53_improvements_are_ranked : forall j M c ok x y d, 0 < fst (c x) -> 0 < fst (c y) ->
  forall A, A = EI j M \/ A = MPI j M ->
  let U := mk_under (acquisition_function A c ok) d in
  (penalized (lp_transform false TNone) U [] x < penalized (lp_transform false TNone) U [] y <-> acquisition_function A c ok x < acquisition_function A c ok y).
Proof.
  intros j M c ok x y d X Y A HA. assert (P : forall z, 0 < compute_acq A z) by (destruct HA; subst A; intros z; [apply EI_positive|apply MPI_range]).
  exact (ranking_of_the_logarithm (mk_under (acquisition_function A c ok) d) x y (improvement_not_positive A c ok x P X) (improvement_not_positive A c ok y P Y)).
Qed.
Print Assumptions C53_improvements_are_ranked.
(** ... and the confidence bound, whose values have any sign, below 40 or by a margin of 1e-16... *)
Theorem C53_same_ranking_lcb : forall U x y,
  (-40 < u_value U x -> -40 < u_value U y ->
    (penalized (lp_transform true TNone) U [] x < penalized (lp_transform true TNone) U [] y <-> u_value U x < u_value U y)) /\
  (u_value U x + / 10 ^ 16 <= u_value U y -> penalized (lp_transform true TNone) U [] x < penalized (lp_transform true TNone) U [] y).
Proof. intros U x y. split; [apply ranking_of_softplus_below|apply ranking_of_softplus]. Qed.
Print Assumptions C53_same_ranking_lcb.
(** ... but not at 40, where the code changes from log(log(1 + exp f)) to log f. *)
Theorem C53_same_ranking_lcb_refuted : exists U x y, u_value U x < u_value U y /\
  penalized (lp_transform true TNone) U [] y < penalized (lp_transform true TNone) U [] x.
Proof. exact ranking_refuted. Qed.
Print Assumptions C53_same_ranking_lcb_refuted.
Example C53_nonvacuous_ranking : fst (constant_cost [2]) = 1 /\ u_value flat [3] = -1 /\
  acquisition_function (EI 0 (GPModel line)) constant_cost (fun p => match p with [v] => if Rlt_dec v 4 then true else false | _ => false end) [2] <
  acquisition_function (EI 0 (GPModel line)) constant_cost (fun p => match p with [v] => if Rlt_dec v 4 then true else false | _ => false end) [5].
Proof.
  split; [reflexivity|]. split; [reflexivity|]. unfold acquisition_function. pose proof (EI_positive 0 (GPModel line) [2]).
  destruct (Rlt_dec 2 4); [|lra]. destruct (Rlt_dec 5 4); [lra|]. cbn [b2r constant_cost fst]. lra.
Qed.

(** ---------------------------------------------------------------- C55 *)
Theorem C55_deviation_floor : forall g x, / 10 ^ 5 <= snd (gp_predict g x) /\
  gp_predict g x = (let '(m, s, _, _) := gp_predict_withGradients g x in (m, s)).
Proof. exact deviation_floor. Qed.
Print Assumptions C55_deviation_floor.
Theorem C55_deviation_exact : forall g x, / 10 ^ 10 <= g_var g x ->
  snd (gp_predict g x) = sqrt (g_var g x) /\ snd (gp_predict g x) * snd (gp_predict g x) = g_var g x.
Proof. exact deviation_exact. Qed.
Print Assumptions C55_deviation_exact.
Theorem C55_gradients : forall g x, gradient (g_mean g) x (g_dmean g x) -> gradient (g_var g) x (g_dvar g x) -> / 10 ^ 10 < g_var g x ->
  honest (GPModel g) x /\ / 10 ^ 10 < snd (predict (GPModel g) x).
Proof. exact GP_honest. Qed.
Print Assumptions C55_gradients.
Example C55_nonvacuous : smooth [6] line.
Proof. exact (line_smooth 6). Qed.
