(** Random designs under constraints on rows of doubles: GPyOpt/experiment_design/random_design.py:15-35.  Spaces without bandit variables, as in FloatPipe.v;
    Model/Design.v has the same loop on exact numbers.  Definitions only. *)
From Coq Require Import List ZArith Bool.
From Flocq Require Import IEEE754.BinarySingleNaN.
From Verif.Model Require Import Py Float FloatRow FloatCons FloatPipe.
Import ListNotations.

(** random_design.py:30-32 domain_samples[valid_indices,:] with valid_indices = (indicator == 1) *)
Definition keep_valid_f (D : list (list float)) (I : list float) : list (list float) := map fst (filter (fun p => feq (snd p) (of_Z 1)) (combine D I)).
(** random_design.py:28-35 the loop: iteration [t] uses the draws [u t] and [c t]; None: not finished within [fuel] iterations *)
Fixpoint reject_f (fuel : nat) (ks : list fkind) (es : list fexpr) (u : nat -> nat -> nat -> float) (c : nat -> nat -> nat -> nat) (n t : nat) (samples : list (list float))
    : option (res (list (list float))) :=
  match fuel with
  | O => None
  | S f =>
      if Nat.ltb (length samples) n then
        match (D <- random_design_f ks (u t) (c t) n ;; I <- indicator_constraints_f es D ;; Ok (keep_valid_f D I)) with
        | Ok V => reject_f f ks es u c n (S t) (samples ++ V)
        | Raise e => Some (Raise e)
        end
      else Some (Ok (firstn n samples))
  end.
(** random_design.py:15-19 get_samples *)
Definition get_samples_f (fuel : nat) (ks : list fkind) (es : list fexpr) (u : nat -> nat -> nat -> float) (c : nat -> nat -> nat -> nat) (n : nat) : option (res (list (list float))) :=
  match es with [] => Some (random_design_f ks (u 0) (c 0) n) | _ => reject_f fuel ks es u c n 0 [] end.
