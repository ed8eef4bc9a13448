(** Acquisition values in double precision. *)
From Coq Require Import List ZArith Bool Reals Lra Lia.
From Flocq Require Import Core IEEE754.BinarySingleNaN.
From Verif.Model Require Import Py Float FloatStop FloatCons FloatAcq AcqR.
From Verif.Spec Require Import FloatSpec RSpec FloatAcqSpec.
From Verif.Proof Require Import FloatP FloatStopP FloatConsP GaussP AcqP FloatAcqP.
Import ListNotations.
Local Open Scope R_scope.

(** C124, the lower confidence bound: it is never NaN, and where it does not overflow a smaller predicted mean or a larger deviation never makes it
    smaller. *)
Theorem C124_lcb : forall w m s, number w -> number m -> number s -> nan_p (lcb_f w m s) = false /\
  forall m' s', 0 <= val w -> number m' -> number s' -> number (lcb_f w m s) -> number (lcb_f w m' s') -> val m <= val m' -> val s' <= val s ->
    val (lcb_f w m' s') <= val (lcb_f w m s).
Proof. intros w m s Hw Hm Hs. split; [now apply lcb_nn | intros; now apply lcb_mono]. Qed.
Print Assumptions C124_lcb.

(** The probability of improvement is always a number between 0 and 1, and where the quantiles do not overflow it never grows with the mean. *)
Theorem C124_mpi : forall L par fmin m s, libm_like L -> number par -> number fmin -> number m -> number s ->
  (number (mpi_f L par fmin m s) /\ 0 <= val (mpi_f L par fmin m s) <= 1) /\
  forall m', number m' -> number (quantile_u par fmin m (clipped s)) -> number (quantile_u par fmin m' (clipped s)) -> val m <= val m' ->
    val (mpi_f L par fmin m' s) <= val (mpi_f L par fmin m s).
Proof.
  intros L par fmin m s HL Hp Hf Hm Hs. split; [apply Phi_ok; [exact HL | now apply u_pos] | intros; now apply mpi_mono].
Qed.
Print Assumptions C124_mpi.

(** Expected improvement is NaN exactly where the quantile overflows to -inf. *)
Theorem C124_ei : forall L par fmin m s, libm_like L -> number par -> number fmin -> number m -> number s ->
  (nan_p (ei_f L par fmin m s) = true <-> quantile_u par fmin m (clipped s) = minus_inf).
Proof. exact ei_nan. Qed.
Print Assumptions C124_ei.

(** More than fifty deviations above the minimum both improvements are exactly 0. *)
Theorem C124_plateau : forall L par fmin m s, libm_like L -> number par -> number fmin -> number m -> number s ->
  number (quantile_u par fmin m (clipped s)) -> val (quantile_u par fmin m (clipped s)) <= -50 ->
  (number (ei_f L par fmin m s) /\ val (ei_f L par fmin m s) = 0) /\ (number (mpi_f L par fmin m s) /\ val (mpi_f L par fmin m s) = 0).
Proof. exact plateau. Qed.
Print Assumptions C124_plateau.

(** The value that is minimised, for a positive cost: an infeasible location has 0, a feasible one is never NaN and has the rounded quotient. With
    a cost of 0 an infeasible location has NaN. *)
Theorem C124_weighting : forall f c, number f -> number c ->
  (val c <> 0 -> (number (weighted_f f (indicator_of false) c) /\ val (weighted_f f (indicator_of false) c) = 0) /\
    nan_p (weighted_f f (indicator_of true) c) = false /\
    (number (weighted_f f (indicator_of true) c) -> val (weighted_f f (indicator_of true) c) = nearest (- (val f / val c)))) /\
  (val c = 0 -> nan_p (weighted_f f (indicator_of false) c) = true).
Proof.
  intros f c Hf Hc. split; [|intros; now apply no_cost]. intros Z. split; [now apply weighted_out | now apply weighted_in].
Qed.
Print Assumptions C124_weighting.

(** Being infeasible is never preferred where the acquisition is not negative, and being feasible is preferred exactly where the quotient does not
    underflow. *)
Theorem C124_preference : forall f c, number f -> number c -> 0 <= val f -> 0 < val c ->
  flt (weighted_f f (indicator_of false) c) (weighted_f f (indicator_of true) c) = false /\
  (flt (weighted_f f (indicator_of true) c) (weighted_f f (indicator_of false) c) = true <-> nearest (val f / val c) <> 0).
Proof. exact prefers. Qed.
Print Assumptions C124_preference.

(** For expected improvement that is so wherever the prediction is no worse than the minimum less the jitter. *)
Theorem C124_improving : forall L par fmin m s c, libm_like L -> number par -> number fmin -> number m -> number s -> number c ->
  number (ei_f L par fmin m s) -> number (quantile_u par fmin m (clipped s)) -> 0 <= val (quantile_u par fmin m (clipped s)) ->
  0 < val c <= bpow radix2 1000 ->
  flt (weighted_f (ei_f L par fmin m s) (indicator_of true) c) (weighted_f (ei_f L par fmin m s) (indicator_of false) c) = true.
Proof. exact ei_prefers. Qed.
Print Assumptions C124_improving.

(** The values with and without gradients agree at feasible locations, and at infeasible ones exactly where the quotient does not overflow; there
    the one with gradients is NaN. *)
Theorem C124_two_versions : forall f c, number f -> number c -> val c <> 0 ->
  same (weighted_f f (indicator_of true) c) (weighted_withGradients_f f (indicator_of true) c) /\
  (number (fdiv f c) -> same (weighted_f f (indicator_of false) c) (weighted_withGradients_f f (indicator_of false) c)) /\
  (~ number (fdiv f c) -> nan_p (weighted_withGradients_f f (indicator_of false) c) = true).
Proof. intros f c Hf Hc Z. split; [now apply twice_in | now apply twice_out]. Qed.
Print Assumptions C124_two_versions.

(** Correctly rounded functions are such a library. *)
Theorem C124_library : forall L, correctly_rounded L -> libm_like L.
Proof. exact rounded_like. Qed.
Print Assumptions C124_library.

(** Functions with a few steps are one too. *)
Definition steps : libm := mk_libm (fun x => if flt x (of_Z (-1)) then f0 else of_Z 1)
  (fun x => if flt f0 x then (if flt x (of_Z 33) then of_Z 1 else f0) else of_Z 2).
Lemma steps_like : libm_like steps.
Proof.
  destruct f0_ok as [Z0 V0]. destruct of1 as [Z1 V1]. destruct (of_Z_ok 2 ltac:(cbn; lia)) as [Z2 V2].
  destruct (of_Z_ok (-1) ltac:(cbn; lia)) as [Zm Vm]. destruct (of_Z_ok 33 ltac:(cbn; lia)) as [Zt Vt].
  split; unfold steps; cbn [exp_f erfc_f].
  - intros x _. destruct (flt x _); [rewrite V0 | rewrite V1]; split; try assumption; lra.
  - intros x N [V W]. destruct (flt x _) eqn:E; [apply (flt_true _ _ N Zm) in E; lra | rewrite V1; lra].
  - intros x [->|[N V]]; [exact V0|]. destruct (flt x _) eqn:E; [exact V0 | apply (flt_false _ _ N Zm) in E; lra].
  - intros x _. destruct (flt f0 x); [destruct (flt x _)|]; [rewrite V1 | rewrite V0 | rewrite V2]; split; try assumption; lra.
  - intros x [->|[N V]]; [change (1 <= val (of_Z 2)); lra|]. destruct (flt f0 x) eqn:E; [apply (flt_true _ _ Z0 N) in E; lra | rewrite V2; lra].
  - intros x [->|[N V]]; [exact V0|]. destruct (flt f0 x) eqn:E; [|apply (flt_false _ _ Z0 N) in E; lra].
    destruct (flt x _) eqn:E'; [apply (flt_true _ _ N Zt) in E'; lra | exact V0].
  - intros x y Nx Ny V. destruct (flt f0 x) eqn:A; destruct (flt f0 y) eqn:B; destruct (flt x (of_Z 33)) eqn:C; destruct (flt y (of_Z 33)) eqn:D;
      try (apply (flt_true _ _ Z0 Nx) in A); try (apply (flt_false _ _ Z0 Nx) in A); try (apply (flt_true _ _ Z0 Ny) in B); try (apply (flt_false _ _ Z0 Ny) in B);
      try (apply (flt_true _ _ Nx Zt) in C); try (apply (flt_false _ _ Nx Zt) in C); try (apply (flt_true _ _ Ny Zt) in D); try (apply (flt_false _ _ Ny Zt) in D);
      rewrite ?V0, ?V1, ?V2; lra.
Qed.
Lemma at50 : forall u, number u -> flt u (of_Z (-50)) = true -> val u <= -50.
Proof. intros u N H. destruct (of_Z_ok (-50) ltac:(cbn; lia)) as [Z V]. apply (flt_true _ _ N Z) in H. lra. Qed.
Lemma at0 : forall u, number u -> flt u f0 = false -> 0 <= val u.
Proof. intros u N H. destruct f0_ok as [Z V]. apply (flt_false _ _ N Z) in H. lra. Qed.
(** The hypotheses are met: at a mean of 0 and a deviation of 1, with the minimum 1, the feasible location is preferred at a cost of 2. *)
Example C124_nonvacuous : libm_like steps /\ number (ei_f steps f0 (of_Z 1) f0 (of_Z 1)) /\ number (quantile_u f0 (of_Z 1) f0 (clipped (of_Z 1))) /\
  0 <= val (quantile_u f0 (of_Z 1) f0 (clipped (of_Z 1))) /\
  flt (weighted_f (ei_f steps f0 (of_Z 1) f0 (of_Z 1)) (indicator_of true) (of_Z 2))
      (weighted_f (ei_f steps f0 (of_Z 1) f0 (of_Z 1)) (indicator_of false) (of_Z 2)) = true /\ 0 < val (lcb_f (of_Z 2) f0 (of_Z 1)).
Proof.
  assert (N : number (ei_f steps f0 (of_Z 1) f0 (of_Z 1))) by (vm_compute; reflexivity).
  assert (U : number (quantile_u f0 (of_Z 1) f0 (clipped (of_Z 1)))) by (vm_compute; reflexivity).
  assert (P : 0 <= val (quantile_u f0 (of_Z 1) f0 (clipped (of_Z 1)))) by (apply at0; [exact U | vm_compute; reflexivity]).
  destruct (of_Z_ok 2 ltac:(cbn; lia)) as [Z2 V2].
  split; [exact steps_like|]. split; [exact N|]. split; [exact U|]. split; [exact P|]. split.
  - destruct f0_ok as [Z0 _]. destruct of1 as [Z1 _]. apply C124_improving; try assumption; [exact steps_like|]. rewrite V2. split; [lra|]. change 2 with (bpow radix2 1). apply bpow_le. lia.
  - assert (K : flt f0 (lcb_f (of_Z 2) f0 (of_Z 1)) = true) by (vm_compute; reflexivity).
    apply flt_true in K; [rewrite (proj2 f0_ok) in K; exact K | apply f0_ok | vm_compute; reflexivity].
Qed.
(** a point a hundred deviations above the incumbent *)
Example C124_nonvacuous_plateau : number (quantile_u f0 f0 (of_Z 100) (clipped (of_Z 1))) /\ val (quantile_u f0 f0 (of_Z 100) (clipped (of_Z 1))) <= -50 /\
  val (ei_f steps f0 f0 (of_Z 100) (of_Z 1)) = 0 /\ val (mpi_f steps f0 f0 (of_Z 100) (of_Z 1)) = 0.
Proof.
  assert (N : number (quantile_u f0 f0 (of_Z 100) (clipped (of_Z 1)))) by (vm_compute; reflexivity). destruct (of_Z_ok (-50) ltac:(cbn; lia)) as [Z5 V5].
  assert (U : val (quantile_u f0 f0 (of_Z 100) (clipped (of_Z 1))) <= -50).
  { assert (K : flt (quantile_u f0 f0 (of_Z 100) (clipped (of_Z 1))) (of_Z (-50)) = true) by (vm_compute; reflexivity). apply flt_le in K; [now rewrite V5 in K | exact N | exact Z5]. }
  destruct (C124_plateau steps f0 f0 (of_Z 100) (of_Z 1) steps_like) as [[_ E] [_ P]]; try exact N; try exact U; try reflexivity. auto.
Qed.
(** That a feasible location is always preferred for expected improvement is false: a hundred deviations above the minimum the exact value is
    positive, the computed one is 0 and so is that of an infeasible location. *)
Theorem C124_refuted : exists par fmin m s c, number par /\ number fmin /\ number m /\ number s /\ number c /\ 0 < val c /\
  (exists E, expectation (val m) (val s) (improvement (val fmin - val par)) E /\ 0 < E) /\
  forall L, libm_like L -> val (weighted_f (ei_f L par fmin m s) (indicator_of true) c) = val (weighted_f (ei_f L par fmin m s) (indicator_of false) c).
Proof.
  exists f0, f0, (of_Z 100), (of_Z 1), (of_Z 1). destruct f0_ok as [Z0 V0]. destruct of1 as [Z1 V1]. destruct (of_Z_ok 100 ltac:(cbn; lia)) as [Zh Vh].
  do 5 (split; [assumption|]). split; [lra|]. split.
  - rewrite V1. eexists. split; [apply expected_improvement; lra|]. apply Rmult_lt_0_compat; [lra | apply h_pos].
  - intros L HL. assert (U : number (quantile_u f0 f0 (of_Z 100) (clipped (of_Z 1)))) by (vm_compute; reflexivity).
    assert (Lo : val (quantile_u f0 f0 (of_Z 100) (clipped (of_Z 1))) <= -50) by (apply at50; [exact U | vm_compute; reflexivity]).
    destruct (plateau L f0 f0 (of_Z 100) (of_Z 1) HL Z0 Z0 Zh Z1 U Lo) as [[A B] _].
    destruct (weighted_out _ (of_Z 1) A ltac:(lra)) as [_ ->]. destruct (zero_form _ A B) as [b ->]. destruct b; reflexivity.
Qed.
Print Assumptions C124_refuted.
(** That expected improvement of numbers is a number is false: with a mean and a minimum of opposite sign and size 2^1000 and a deviation of 1e-10
    it is NaN. *)
Theorem C124_refuted_nan : exists par fmin m s, number par /\ number fmin /\ number m /\ number s /\
  forall L, libm_like L -> nan_p (ei_f L par fmin m s) = true.
Proof.
  exists f0, (lit (-1) 1000), (lit 1 1000), tenth10. destruct f0_ok as [Z0 _].
  assert (A : number (lit (-1) 1000)) by (vm_compute; reflexivity). assert (B : number (lit 1 1000)) by (vm_compute; reflexivity). destruct tenth10_ok as [C _].
  do 4 (split; [assumption|]). intros L HL. apply C124_ei; [assumption .. | vm_compute; reflexivity].
Qed.
Print Assumptions C124_refuted_nan.
(** That the values with and without gradients always agree is false: an acquisition of 2^1000 at a cost of 2^-100 at an infeasible location. *)
Theorem C124_refuted_versions : exists f c, number f /\ number c /\ 0 < val c /\ val (weighted_f f (indicator_of false) c) = 0 /\
  nan_p (weighted_withGradients_f f (indicator_of false) c) = true.
Proof.
  exists (lit 1 1000), (lit 1 (-100)). assert (A : number (lit 1 1000)) by (vm_compute; reflexivity). assert (B : number (lit 1 (-100))) by (vm_compute; reflexivity).
  assert (P : 0 < val (lit 1 (-100))).
  { assert (K : flt f0 (lit 1 (-100)) = true) by (vm_compute; reflexivity). apply flt_true in K; [rewrite (proj2 f0_ok) in K; exact K | apply f0_ok | exact B]. }
  split; [exact A|]. split; [exact B|]. split; [exact P|]. split; [apply weighted_out; [exact A | lra] | vm_compute; reflexivity].
Qed.
Print Assumptions C124_refuted_versions.
