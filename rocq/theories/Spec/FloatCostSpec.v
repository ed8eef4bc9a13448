(** What is asked of the logarithm, and sequences of updates of the cost model. *)
From Coq Require Import Reals List.
From Flocq Require Import IEEE754.BinarySingleNaN.
From Verif.Model Require Import Py Float FloatCost.
From Verif.Spec Require Import FloatSpec.
Import ListNotations.
Local Open Scope R_scope.

(** np.log: a number for positive numbers, -inf for zero (of either sign), NaN for negative ones *)
Definition log_like (lg : float -> float) : Prop :=
  forall x, number x -> (0 < val x -> number (lg x)) /\ (val x = 0 -> lg x = B754_infinity true) /\ (val x < 0 -> nan_p (lg x) = true).
(** One update after the other: the evaluated rows with the clock readings before and after each evaluation *)
Fixpoint updated (lg : float -> float) (c : costs_f) (ups : list (list (list float) * list (float * float))) : res costs_f :=
  match ups with
  | [] => Ok c
  | u :: ups' => match update_costs lg c (fst u) (times (snd u)) with Ok c' => updated lg c' ups' | Raise e => Raise e end
  end.
(** The clock readings are numbers and so are their differences *)
Definition readable (r : float * float) : Prop := number (fst r) /\ number (snd r) /\ number (fsub (snd r) (fst r)).
