(** C54, C66-C71, C87: entropy search.  Specification: Spec/RSpec.v (derivatives, sums), Spec/ESSpec.v; data: Spec/ESExamples.v.
    Model: Model/ES.v.  Vectors and matrices are functions of the indices; [solve] and [ldet] are the external linear algebra
    routines, arbitrary in every theorem. *)
From Coq Require Import Reals Lra Lia List Bool.
From Coquelicot Require Import Coquelicot.
From Verif.Model Require Import AcqR ES.
From Verif.Spec Require Import RSpec ESSpec ESExamples.
From Verif.Proof Require Import Gauss GaussP AcqP AcqM ESP ESP2 ESEx ESMarg ESCov ESTwo ESTwoEx.
Import ListNotations.
Local Open Scope R_scope.

(** ---------------------------------------------------------------- C54 *)
Theorem C54_probabilities : forall solve ldet D Mu Sigma, (0 < D)%nat ->
  let logP := fst (fst (fst (joint_min solve ldet D Mu Sigma))) in
  (forall k, 0 < exp (logP k)) /\ sum_to D (fun k => exp (logP k)) = 1.
Proof. exact joint_min_normalised. Qed.
Print Assumptions C54_probabilities.
(** Re-normalisation changes no ratio of two weights. *)
Theorem C54_ratios : forall D l i j, (0 < D)%nat -> exp (renormalised D l i) * exp (l j) = exp (renormalised D l j) * exp (l i).
Proof. exact normalised_ratio. Qed.
Print Assumptions C54_ratios.
(** In terms of the log-weights computed point by point: their ratios are kept, and -inf counts as -500. *)
Theorem C54_weights : forall solve ldet D Mu Sigma, (0 < D)%nat ->
  let raw := fun k => fst (fst (fst (min_faktor solve ldet D Mu Sigma k))) in let logP := fst (fst (fst (joint_min solve ldet D Mu Sigma))) in
  (forall i j a b, raw i = Finite a -> raw j = Finite b -> exp (logP i) * exp b = exp (logP j) * exp a) /\
  (forall i j b, raw i = m_infty -> raw j = Finite b -> exp (logP i) * exp b = exp (logP j) * exp (-500)).
Proof. exact infinite_weights. Qed.
Print Assumptions C54_weights.
Theorem C54_single_point : forall solve ldet Mu Sigma, let '(logP, dMu, dSigma, dMuMu) := joint_min solve ldet 1 Mu Sigma in
  logP 0%nat = 0 /\ dMu 0%nat 0%nat = 0 /\ dSigma 0%nat 0%nat = 0 /\ dMuMu 0%nat 0%nat 0%nat = 0.
Proof. exact single_point. Qed.
Print Assumptions C54_single_point.
(** The probabilities predicted for each sampled outcome also sum to 1. *)
Theorem C54_predictions : forall N E W dm dv s, (0 < N)%nat -> sum_to N (fun k => exp (renormalised N (predicted_logP N E W dm dv s) k)) = 1.
Proof. exact (fun N E W dm dv s H => normalised N (predicted_logP N E W dm dv s) H). Qed.
Print Assumptions C54_predictions.
Example C54_nonvacuous : exp (renormalised 2 (two origin) 0%nat) = / 2.
Proof. exact half_half. Qed.

(** ---------------------------------------------------------------- C66 *)
(** [F w k] the raw log-weights as functions of the parameters w (means or covariance entries), [J] their derivatives. *)
Theorem C66_first_derivatives : forall D n (F : (nat -> R) -> nat -> R) v, (0 < D)%nat -> (forall i k, F (upd v i (v i)) k = F v k) ->
  forall J, (forall k i, (k < D)%nat -> (i < n)%nat -> slope (fun w => F w k) v i (J k i)) ->
  forall k i, (k < D)%nat -> (i < n)%nat -> slope (fun w => renormalised D (F w) k) v i (adjusted D n (F v) J k i).
Proof. exact adjusted_slope. Qed.
Print Assumptions C66_first_derivatives.
(** The entry (i, j) of the returned second derivatives is right exactly when the mean derivative in direction j is 0 or equals
    the one in direction i. *)
Theorem C66_second_derivatives_iff : forall D (F : (nat -> R) -> nat -> R) v (J : (nat -> R) -> nat -> nat -> R) (H : nat -> nat -> nat -> R), (0 < D)%nat ->
  (forall i k, F (upd v i (v i)) k = F v k) -> (forall i k j, J (upd v i (v i)) k j = J v k j) ->
  (forall k i, (k < D)%nat -> (i < D)%nat -> slope (fun w => F w k) v i (J v k i)) ->
  (forall k i j, (k < D)%nat -> (i < D)%nat -> (j < D)%nat -> slope (fun w => J w k i) v j (H k i j)) ->
  forall k i j, (k < D)%nat -> (i < D)%nat -> (j < D)%nat ->
    (slope (fun w => adjusted D D (F w) (J w) k i) v j (adjusted2 D (F v) (J v) H k i j) <->
     weighted D (F v) (fun m => J v m j) = 0 \/ weighted D (F v) (fun m => J v m j) = weighted D (F v) (fun m => J v m i)).
Proof. exact second_slope'. Qed.
Print Assumptions C66_second_derivatives_iff.
Theorem C66_second_derivatives_refuted : exists D F v J H, (0 < D)%nat /\
  (forall i k, F (upd v i (v i)) k = F v k) /\ (forall i k j, J (upd v i (v i)) k j = J v k j) /\
  (forall k i, (k < D)%nat -> (i < D)%nat -> slope (fun w => F w k) v i (J v k i)) /\
  (forall k i j, (k < D)%nat -> (i < D)%nat -> (j < D)%nat -> slope (fun w => J w k i) v j (H k i j)) /\
  exists k i j, (k < D)%nat /\ (i < D)%nat /\ (j < D)%nat /\
    ~ slope (fun w => adjusted D D (F w) (J w) k i) v j (adjusted2 D (F v) (J v) H k i j).
Proof. exact second_refuted. Qed.
Print Assumptions C66_second_derivatives_refuted.
Example C66_nonvacuous : forall k i, slope (fun w => two w k) origin i (two_first origin k i).
Proof. exact two_slope. Qed.

(** ---------------------------------------------------------------- C67 *)
(** One update: dp and dmp are the changes of the message's precision and precision-mean; the new marginal (M', V') satisfies
    (I + dp V c c') V' = V and (I + dp V c c') M' = M + dmp V c with c the contrast of the two points: it is the Gaussian
    N(M, V) multiplied by exp(-dp/2 (c'f)^2 + dmp c'f). *)
Theorem C67_message_update : forall s l M V mp p gamma, symmetric V -> fa_d (lt_factor s l M V mp p gamma) <> None ->
  let q := lt_factor s l M V mp p gamma in
  let dp := fa_p q - p in let dmp := fa_mp q - mp in
  1 + dp * contrast s l (fun i => contrast s l (V i)) <> 0 ->
  (forall i j, fa_V q i j + dp * contrast s l (V i) * contrast s l (fun a => fa_V q a j) = V i j) /\
  (forall i, fa_M q i + dp * contrast s l (V i) * contrast s l (fa_M q) = M i + dmp * contrast s l (V i)) /\ symmetric (fa_V q).
Proof. exact ep_update. Qed.
Print Assumptions C67_message_update.
(** After any number of sweeps the message precisions are non-negative and the marginal covariance is symmetric. *)
Theorem C67_sweeps : forall count D k Mu Sigma w, symmetric Sigma -> sweeps count D k 1 (start Mu Sigma) = Some w ->
  (forall j, 0 <= sw_P w j) /\ symmetric (sw_V w).
Proof. exact min_faktor_messages. Qed.
Print Assumptions C67_sweeps.
(** The marginal kept by the sweeps, after any number of them: the Gaussian N(Mu, Sigma) times all messages. *)
Theorem C67_marginals : forall count D k Mu Sigma w, (k < D)%nat -> symmetric Sigma -> positive_definite D Sigma ->
  sweeps count D k 1 (start Mu Sigma) = Some w -> carries_messages D k Mu Sigma (sw_P w) (sw_MP w) (sw_M w) (sw_V w).
Proof. exact marginals. Qed.
Print Assumptions C67_marginals.
(** [other k] numbers exactly the points other than k. *)
Theorem C67_other_points : forall D k, (k < D)%nat ->
  (forall a b, other k a = other k b -> a = b) /\ (forall l, (l < D)%nat -> l <> k <-> exists a, (a < D - 1)%nat /\ other k a = l).
Proof. exact other_all. Qed.
Print Assumptions C67_other_points.
(** Moment matching: along its contrast the marginal after an update has the mean and the variance of the cavity N(m, v),
    the marginal without this message, restricted to the non-negative side. *)
Theorem C67_moment_matching : forall s l M V mp p, symmetric V ->
  let w := contrast s l (fun i => contrast s l (V i)) in let cM := contrast s l M in
  0 < w -> p * w < 1 -> let v := w / (1 - p * w) in let m := cM + v * (p * cM - mp) in let z := m / sqrt (v + / 10 ^ 25) in
  -6 <= z <= 6 -> forall P, probability_le 0 1 z P -> kept_message m v (normal 0 1 z / P) ->
  let q := lt_factor s l M V mp p 1 in
  contrast s l (fa_M q) = restricted_mean m v (normal 0 1 z / P) /\
  contrast s l (fun i => contrast s l (fa_V q i)) = restricted_variance m v (normal 0 1 z / P).
Proof. exact moment_matching. Qed.
Print Assumptions C67_moment_matching.
Example C67_nonvacuous_matching : symmetric unit_cov /\
  let w := contrast 0 1 (fun i => contrast 0 1 (unit_cov i)) in let cM := contrast 0 1 origin in
  0 < w /\ 0 * w < 1 /\ let v := w / (1 - 0 * w) in let m := cM + v * (0 * cM - 0) in let z := m / sqrt (v + / 10 ^ 25) in
  -6 <= z <= 6 /\ probability_le 0 1 z (/ 2) /\ kept_message m v (normal 0 1 z / / 2).
Proof. exact matching_example. Qed.
Example C67_nonvacuous_sweeps : exists w, sweeps 50 2 0 1 (start origin unit_cov) = Some w /\
  inverse_of 1 (IRSR 2 0 (sw_P w) unit_cov) (solve1 (IRSR 2 0 (sw_P w) unit_cov)).
Proof. exact sweeps_example. Qed.
(** The Gaussian ratio used by the update, between -6 and 6: density over distribution function. *)
Theorem C67_gaussian_ratio : forall z, -6 <= z <= 6 -> forall P, probability_le 0 1 z P ->
  log_relative_gauss z = (normal 0 1 z / P, ln P, 0%Z).
Proof. exact relative_gauss'. Qed.
Print Assumptions C67_gaussian_ratio.
Example C67_nonvacuous : symmetric unit_cov /\ fa_d (lt_factor 0 1 origin unit_cov 0 0 1) <> None /\
  1 + (fa_p (lt_factor 0 1 origin unit_cov 0 0 1) - 0) * contrast 0 1 (fun i => contrast 0 1 (unit_cov i)) <> 0.
Proof. exact update_example. Qed.

(** ---------------------------------------------------------------- C68 *)
(** With the messages [P], [MP] fixed, the returned derivatives are those of log Z in the means. *)
Theorem C68_first_derivative : forall D k P MP solve Sigma logdet s mp Mu i, (i < D)%nat ->
  let r := rvec D k MP in let A := Amat D k P (solve (IRSR D k P Sigma)) in
  slope (fun m => logZ D m Sigma r A logdet s mp) Mu i (dlogZdMu D Mu Sigma r A i).
Proof. exact (fun D k P MP solve Sigma logdet s mp Mu i H => logZ_slope D Sigma (rvec D k MP) (Amat D k P (solve (IRSR D k P Sigma))) logdet s mp (Amat_sym D k P _) Mu i H). Qed.
Print Assumptions C68_first_derivative.
Theorem C68_second_derivative : forall D k P MP solve Sigma Mu i j, (i < D)%nat -> (j < D)%nat ->
  let r := rvec D k MP in let A := Amat D k P (solve (IRSR D k P Sigma)) in
  slope (fun m => dlogZdMu D m Sigma r A i) Mu j (dlogZdMudMu A i j).
Proof. exact (fun D k P MP solve Sigma Mu i j H K => dlogZ_slope D Sigma (rvec D k MP) (Amat D k P (solve (IRSR D k P Sigma))) Mu i j H K). Qed.
Print Assumptions C68_second_derivative.
(** The returned derivatives determine the marginal of the sweeps, as the derivatives of the exact normaliser would:
    M - Mu = Sigma grad and V - Sigma = Sigma Hess Sigma. *)
Theorem C68_marginal_identities : forall D k Mu Sigma P MP M V N, (k < D)%nat -> symmetric Sigma -> positive_definite D Sigma -> (forall a, 0 <= P a) ->
  carries_messages D k Mu Sigma P MP M V -> inverse_of (D - 1) (IRSR D k P Sigma) N ->
  let r := rvec D k MP in let A := Amat D k P N in
  (forall i, M i - Mu i = sum_to D (fun j => Sigma i j * dlogZdMu D Mu Sigma r A j)) /\
  (forall i j, V i j - Sigma i j = sum_to D (fun a => sum_to D (fun b => Sigma i a * dlogZdMudMu A a b * Sigma b j))).
Proof. exact marginal_identities. Qed.
Print Assumptions C68_marginal_identities.
(** The same about the numbers handed out for point k. *)
Theorem C68_returned_derivatives : forall solve ldet D k Mu Sigma w, (1 < D)%nat -> (k < D)%nat -> symmetric Sigma -> positive_definite D Sigma ->
  sweeps 50 D k 1 (start Mu Sigma) = Some w -> inverse_of (D - 1) (IRSR D k (sw_P w) Sigma) (solve (IRSR D k (sw_P w) Sigma)) ->
  let '(logZ, dMu, dMuMu, dSigma) := min_faktor solve ldet D Mu Sigma k in
  (exists z, logZ = Finite z) /\
  (forall i, sw_M w i - Mu i = sum_to D (fun j => Sigma i j * dMu j)) /\
  (forall i j, sw_V w i j - Sigma i j = sum_to D (fun a => sum_to D (fun b => Sigma i a * dMuMu a b * Sigma b j))).
Proof. exact returned_derivatives. Qed.
Print Assumptions C68_returned_derivatives.
(** The returned packed derivative in the covariance, paired with a symmetric change E, is the derivative of log Z along E
    (messages fixed). *)
Theorem C68_covariance_derivative : forall D k P MP Mu Sigma E solve ldet, (k < D)%nat -> symmetric Sigma -> symmetric E ->
  locally 0 (fun t => inverse_of (D - 1) (IRSR D k P (moved Sigma E t)) (solve (IRSR D k P (moved Sigma E t)))) ->
  jacobi (D - 1) ldet (IRSR D k P Sigma) (solve (IRSR D k P Sigma)) -> forall s mp,
  is_derive (fun t => logZ D Mu (moved Sigma E t) (rvec D k MP) (Amat D k P (solve (IRSR D k P (moved Sigma E t)))) (ldet (IRSR D k P (moved Sigma E t))) s mp) 0
            (ldot (packed D (halved (dlogZdSigma_full D Mu Sigma (rvec D k MP) (Amat D k P (solve (IRSR D k P Sigma)))))) (masked D E)).
Proof. exact cov_derivative. Qed.
Print Assumptions C68_covariance_derivative.
Example C68_nonvacuous_covariance : symmetric unit_cov /\ let P := fun _ : nat => 1 in
  locally 0 (fun t => inverse_of 1 (IRSR 2 0 P (moved unit_cov unit_cov t)) (solve1 (IRSR 2 0 P (moved unit_cov unit_cov t)))) /\
  jacobi 1 ldet1 (IRSR 2 0 P unit_cov) (solve1 (IRSR 2 0 P unit_cov)).
Proof. exact derivative_example. Qed.
Example C68_nonvacuous : rvec 2 0 (fun _ => 1) 0%nat = -1 / sqrt 2 /\ Amat 2 0 (fun _ => 1) unit_cov 0%nat 0%nat = / 2.
Proof. exact logZ_example. Qed.

(** ---------------------------------------------------------------- C69 *)
(** The packed covariance derivatives and the packed covariance changes are listed in the same order, for every number of
    points: their product is half the full double sum. *)
Theorem C69_pairing : forall D G V, (forall i j, V i j = V j i) ->
  ldot (packed D (halved G)) (masked D V) = / 2 * sum_to D (fun i => sum_to D (fun j => G i j * V i j)).
Proof. exact pairing. Qed.
Print Assumptions C69_pairing.
(** The predicted log-probability of point k for a sample: if [f] is the second order expansion whose coefficients are the stored
    derivatives, it is the value of f at the means moved by W s dm and the covariance moved by dv, with the square of the
    sample replaced by 1 (Ito). *)
Theorem C69_second_order : forall N (E : es_par) W dm dv s k (f : vect -> matr -> R) (mu : vect) (V G : matr), (forall i j, dv i j = dv j i) ->
  es_dSigma E k = packed N (halved G) ->
  (forall mu' V', f mu' V' = es_logP E k + sum_to N (fun i => es_dMu E k i * (mu' i - mu i))
     + / 2 * sum_to N (fun i => sum_to N (fun j => es_dMudMu E k i j * ((mu' i - mu i) * (mu' j - mu j))))
     + / 2 * sum_to N (fun i => sum_to N (fun j => G i j * (V' i j - V i j)))) ->
  predicted_logP N E W dm dv s k =
    f (fun i => mu i + W s * dm i) (fun i j => V i j + dv i j) + / 2 * (1 - W s * W s) * sum_to N (fun i => sum_to N (fun j => es_dMudMu E k i j * (dm i * dm j))).
Proof. exact second_order. Qed.
Print Assumptions C69_second_order.
Example C69_nonvacuous_expansion : let E := mk_es origin origin unit_cov (fun _ => packed 2 (halved unit_cov)) (fun _ => unit_cov) in
  let f := fun (mu' : vect) (V' : matr) => 0 + (mu' 0%nat - 0) + / 2 * ((mu' 0%nat - 0) * (mu' 0%nat - 0) + (mu' 1%nat - 0) * (mu' 1%nat - 0)) + / 2 * ((V' 0%nat 0%nat - 1) + (V' 1%nat 1%nat - 1)) in
  forall mu' V', f mu' V' = es_logP E 0%nat + sum_to 2 (fun i => es_dMu E 0%nat i * (mu' i - origin i))
     + / 2 * sum_to 2 (fun i => sum_to 2 (fun j => es_dMudMu E 0%nat i j * ((mu' i - origin i) * (mu' j - origin j))))
     + / 2 * sum_to 2 (fun i => sum_to 2 (fun j => unit_cov i j * (V' i j - unit_cov i j))).
Proof. intros E f mu' V'. unfold f, E, sum_to, sumR. cbn [es_logP es_dMu es_dMudMu seq map fold_right Nat.add]. unfold origin, unit_cov. cbn [Nat.eqb]. ring. Qed.
(** The acquisition never falls below minus the logarithm of the sum of the inverse proposal densities: a lower bound
    independent of the location x. *)
Theorem C69_lower_bound : forall N S E W cov stdev, (0 < N)%nat -> (0 < S)%nat ->
  - ln (sum_to N (fun k => exp (- es_log E k))) <= es_acq N S E W cov stdev.
Proof. exact es_acq_bound. Qed.
Print Assumptions C69_lower_bound.
(** Where the location is uncorrelated with every representer point the value does not depend on the samples: it is the current one. *)
Theorem C69_no_information : forall N S E W stdev, (0 < N)%nat -> (0 < S)%nat -> sum_to N (fun k => exp (es_logP E k)) = 1 ->
  es_acq N S E W (fun _ => 0) stdev = sum_to N (fun k => exp (es_logP E k) * (es_logP E k + es_log E k)).
Proof. exact es_no_information. Qed.
Print Assumptions C69_no_information.
Example C69_nonvacuous : sum_to 2 (fun k => exp (renormalised 2 (two origin) k)) = 1.
Proof. apply normalised. lia. Qed.

(** ---------------------------------------------------------------- C70 *)
(** [updp b] the parameters computed from surrogate state b, [val p b x] the acquisition value at x. *)
Theorem C70_parameters_frozen : forall (X B Par V : Type) (updp : B -> Par) (val : Par -> B -> X -> V) b0 x0 ops x, exists vs,
  es_run updp val (EsEval x0 :: ops ++ [EsEval x]) None b0 = (vs ++ [val (updp b0) (surrogate_after ops b0) x], Some (updp b0), surrogate_after ops b0).
Proof. exact @es_stale. Qed.
Print Assumptions C70_parameters_frozen.
Theorem C70_first_evaluation : forall (X B Par V : Type) (updp : B -> Par) (val : Par -> B -> X -> V) ops b0 x,
  (forall o, In o ops -> exists b, o = EsModel b) ->
  es_run updp val (ops ++ [EsEval x]) None b0 =
    ([val (updp (surrogate_after ops b0)) (surrogate_after ops b0) x], Some (updp (surrogate_after ops b0)), surrogate_after ops b0).
Proof. exact @es_first. Qed.
Print Assumptions C70_first_evaluation.
(** "The value at x is the one computed from the current surrogate" fails after one evaluation and one model update. *)
Theorem C70_reflects_model_refuted : exists (updp : nat -> nat) (val : nat -> nat -> nat -> nat) ops b0 x,
  ~ exists vs p b, es_run updp val (ops ++ [EsEval x]) None b0 = (vs ++ [val (updp (surrogate_after ops b0)) (surrogate_after ops b0) x], p, b).
Proof. exact es_refuted. Qed.
Print Assumptions C70_reflects_model_refuted.
Example C70_nonvacuous : forall o : es_op nat nat, In o [EsModel 1%nat; EsModel 2%nat] -> exists b, o = EsModel b.
Proof. intros o [<-|[<-|[]]]; eauto. Qed.

(** ---------------------------------------------------------------- C71 *)
(** The proposal density is the acquisition inside the box and 0 outside.  The points kept: Props/PSampler.v. *)
Theorem C71_proposal : forall bounds ei x, length x = length bounds -> 0 < ei ->
  (List.Forall (fun p => fst (fst p) <= snd p <= snd (fst p)) (combine bounds x) -> prop_func bounds ei x = Finite (ln ei)) /\
  (~ List.Forall (fun p => fst (fst p) <= snd p <= snd (fst p)) (combine bounds x) -> prop_func bounds ei x = m_infty).
Proof. exact proposal. Qed.
Print Assumptions C71_proposal.
Example C71_nonvacuous : prop_func [(0, 1)] 2 [/2] = Finite (ln 2) /\ prop_func [(0, 1)] 2 [3] = m_infty.
Proof.
  split; [apply (proposal [(0, 1)] 2 [/2])|apply (proposal [(0, 1)] 2 [3])]; try reflexivity; try lra.
  - constructor; [cbn [fst snd]; lra|constructor].
  - intro F. inversion F; subst. cbn [fst snd] in *. lra.
Qed.

(** ---------------------------------------------------------------- C87 *)
(** Two representer points: v is half the variance of their difference.  [kept_message] says that the factor which restricts
    the difference has precision and precision-mean at least the single precision epsilon. *)
Theorem C87_two_points : forall solve ldet Mu Sigma, symmetric Sigma -> positive_definite 2 Sigma ->
  (forall B, 0 < B 0%nat 0%nat -> solve B 0%nat 0%nat = / B 0%nat 0%nat /\ ldet B = ln (B 0%nat 0%nat)) ->
  let v := (Sigma 0%nat 0%nat - 2 * Sigma 0%nat 1%nat + Sigma 1%nat 1%nat) / 2 in let m := (Mu 1%nat - Mu 0%nat) / sqrt 2 in
  let z := m / sqrt (v + / 10 ^ 25) in let logP := fst (fst (fst (joint_min solve ldet 2 Mu Sigma))) in
  (forall P, -6 <= z <= 6 -> probability_le 0 1 z P -> kept_message m v (normal 0 1 z / P) -> kept_message (- m) v (normal 0 1 z / (1 - P)) ->
     exp (logP 0%nat) = P /\ exp (logP 1%nat) = 1 - P) /\
  (6 < z -> exp (logP 1%nat) = exp (-500) * exp (logP 0%nat)) /\ (z < -6 -> exp (logP 0%nat) = exp (-500) * exp (logP 1%nat)).
Proof. exact two_points. Qed.
Print Assumptions C87_two_points.
Example C87_nonvacuous : symmetric unit_cov /\ positive_definite 2 unit_cov /\
  (forall B, 0 < B 0%nat 0%nat -> solve1 B 0%nat 0%nat = / B 0%nat 0%nat /\ ldet1 B = ln (B 0%nat 0%nat)) /\
  let v := (unit_cov 0%nat 0%nat - 2 * unit_cov 0%nat 1%nat + unit_cov 1%nat 1%nat) / 2 in let m := (origin 1%nat - origin 0%nat) / sqrt 2 in
  let z := m / sqrt (v + / 10 ^ 25) in
  -6 <= z <= 6 /\ probability_le 0 1 z (/ 2) /\ kept_message m v (normal 0 1 z / / 2) /\ kept_message (- m) v (normal 0 1 z / (1 - / 2)).
Proof. exact two_example. Qed.
