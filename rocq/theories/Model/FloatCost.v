(** Evaluation times and the surrogate of the cost in double precision: GPyOpt/core/task/objective.py:64-77, GPyOpt/core/task/cost.py:55-74 and
    GPyOpt/models/gpmodel.py:64.  Model/Objective.v has the same code on exact numbers with a logarithm that always answers.  Definitions only. *)
From Coq Require Import List ZArith.
From Flocq Require Import IEEE754.BinarySingleNaN.
From Verif.Model Require Import Py Float FloatStop.
Import ListNotations.

(** objective.py:72-77 the costs that _eval_func measures: for each row the clock is read before and after the call *)
Definition times (readings : list (float * float)) : list float := map (fun r => fsub (snd r) (fst r)) readings.

(** The part of CostModel that matters here: num_updates and the inputs and outputs of the GP (None before the first update, cost.py:32-35) *)
Record costs_f := mk_costs { num_updates : nat; cost_data : option (list (list float) * list float) }.
Definition fresh_costs : costs_f := mk_costs 0 None.
(** cost.py:63-74 update_cost_model with a list of times (sequential evaluation); [lg] is np.log.  The outputs are one column.  Simplification:
    the GP accepts the data; a failure of its training would end the run. *)
Definition update_costs (lg : float -> float) (c : costs_f) (x : list (list float)) (cost_x : list float) : res costs_f :=
  let cost_evals := map lg cost_x in
  match num_updates c, cost_data c with
  | O, _ => Ok (mk_costs 1 (Some (x, cost_evals)))
  | S n, Some (X, C) => Ok (mk_costs (S (S n)) (Some (X ++ x, C ++ cost_evals)))
  | S _, None => Raise AttributeError
  end.

(** gpmodel.py:64  Y.var()*0.01 for the outputs [C] of the first update; [total] is np.sum *)
Definition hundredth : float := lit 5764607523034235 (-59).
Definition mean_of (total : list float -> float) (C : list float) : float := fdiv (total C) (of_Z (Z.of_nat (length C))).
Definition variance (total : list float -> float) (C : list float) : float :=
  let m := mean_of total C in
  fdiv (total (map (fun y => let d := fsub y m in fmul d d) C)) (of_Z (Z.of_nat (length C))).
Definition initial_noise (total : list float -> float) (C : list float) : float := fmul (variance total C) hundredth.
