(** Evaluation times as costs, in double precision. *)
From Coq Require Import List ZArith Bool Reals Lra.
From Flocq Require Import Core IEEE754.BinarySingleNaN.
From Verif.Model Require Import Py Float FloatStop FloatCost.
From Verif.Spec Require Import FloatSpec FloatCostSpec.
From Verif.Proof Require Import FloatP FloatStopP FloatCostP.
Import ListNotations.
Local Open Scope R_scope.

(** C123: with cost 'evaluation_time' the cost surrogate holds, after any sequence of updates, all rows evaluated so far and one output for each
    of them, which is a number exactly when the clock advanced during the evaluation; otherwise it is -inf (clock unchanged) or NaN (clock set
    back). *)
Theorem C123_outputs : forall lg ups, log_like lg -> ups <> [] -> (forall u r, In u ups -> In r (snd u) -> readable r) ->
  exists C, updated lg fresh_costs ups = Ok (mk_costs (length ups) (Some (concat (map fst ups), C))) /\
    length C = length (concat (map snd ups)) /\
    forall i s e, nth_error (concat (map snd ups)) i = Some (s, e) ->
      exists v, nth_error C i = Some v /\ (number v <-> val s < val e) /\ (val s = val e -> v = B754_infinity true) /\ (val e < val s -> nan_p v = true).
Proof. exact learned. Qed.
Print Assumptions C123_outputs.

(** What entered the surrogate stays in its data: a bad output is there in every later update. *)
Theorem C123_for_good : forall lg ups more, ups <> [] -> exists C C',
  updated lg fresh_costs ups = Ok (mk_costs (length ups) (Some (concat (map fst ups), C))) /\
  updated lg fresh_costs (ups ++ more) = Ok (mk_costs (length (ups ++ more)) (Some (concat (map fst (ups ++ more)), C'))) /\
  forall i v, nth_error C i = Some v -> nth_error C' i = Some v.
Proof. exact for_good. Qed.
Print Assumptions C123_for_good.

(** If it was there in the first update the GP is created with the noise variance NaN, in whatever order numpy adds. *)
Theorem C123_noise : forall total C, (forall l, added l (total l)) -> (Z.of_nat (length C) <= 2 ^ 53)%Z -> In (B754_infinity true : float) C ->
  nan_p (initial_noise total C) = true.
Proof. exact noise_nan. Qed.
Print Assumptions C123_noise.

(** A function with the special values of np.log *)
Definition some_log (x : float) : float := if flt f0 x then f0 else if flt x f0 then B754_nan else B754_infinity true.
Lemma some_log_like : log_like some_log.
Proof.
  intros x Hx. destruct f0_ok as [Z1 Z2]. unfold some_log.
  rewrite (flt_ok f0 x Z1 Hx), (flt_ok x f0 Hx Z1), Z2.
  destruct (Rlt_bool_spec 0 (val x)); destruct (Rlt_bool_spec (val x) 0); repeat split; intros; try lra; try reflexivity.
Qed.
Definition ticks (a b : Z) : float * float := (of_Z a, of_Z b).
(** The hypotheses are met by readings of a running clock; all outputs are numbers. *)
Example C123_nonvacuous : exists C, updated some_log fresh_costs [([[f0]], [ticks 10 12]); ([[f0]; [f0]], [ticks 20 21; ticks 21 25])] =
    Ok (mk_costs 2 (Some ([[f0]; [f0]; [f0]], C))) /\ length C = 3%nat /\ (forall v, In v C -> number v) /\
  forall r, In r [ticks 10 12; ticks 20 21; ticks 21 25] -> readable r.
Proof.
  eexists. split; [reflexivity|]. split; [reflexivity|]. split.
  - intros v [<-|[<-|[<-|[]]]]; vm_compute; reflexivity.
  - intros r [<-|[<-|[<-|[]]]]; repeat split; vm_compute; reflexivity.
Qed.
(** That the surrogate always gets numbers is false: one evaluation faster than the clock's resolution gives -inf, and the noise is NaN. *)
Theorem C123_refuted : exists s e C, readable (s, e) /\ val s = val e /\
  updated some_log fresh_costs [([[f0]; [f0]], [ticks 10 12; (s, e)])] = Ok (mk_costs 1 (Some ([[f0]; [f0]], C))) /\
  nth_error C 1 = Some (B754_infinity true : float) /\ forall total, (forall l, added l (total l)) -> nan_p (initial_noise total C) = true.
Proof.
  exists (of_Z 12), (of_Z 12). eexists. split; [repeat split; vm_compute; reflexivity|]. split; [reflexivity|]. split; [reflexivity|].
  assert (E : nth_error (map some_log (times [ticks 10 12; (of_Z 12, of_Z 12)])) 1 = Some (B754_infinity true : float)).
  { reflexivity. }
  split; [exact E|]. intros total Ht. apply noise_nan; [exact Ht | vm_compute; discriminate | eapply nth_error_In; exact E].
Qed.
Print Assumptions C123_refuted.
