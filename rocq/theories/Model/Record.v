(** The record of the surrogate's parameters: GPyOpt/core/bo.py:69, 101, 243-267 and GPyOpt/models/gpmodel.py:161-165, 345-349.
    Model/BO.v keeps rows of numbers; here the arrays that the rows live in matter.  Definitions only. *)
From Coq Require Import List.
Import ListNotations.

Section Record.
Context {P : Type}.                (* the values of all parameters at one time *)
(** model_parameters_iterations: None, the parameter array of the surrogate itself (seen as one row), or an array of its own *)
Inductive record := RNone | RLive | ROwn (rows : list P).
(** The parameter array of the surrogate (None before the first update: get_model_parameters would fail) and the record. *)
Record rstate := mk_rstate { live : option P; recorded : record }.
(** What the record shows when it is read. *)
Definition shown (s : rstate) : option (list P) :=
  match recorded s with
  | RNone => None
  | RLive => Some (match live s with Some p => [p] | None => [] end)
  | ROwn rows => Some rows
  end.
(** suggest_next_locations and run_optimization start with [Begin] (bo.py:69, 101).  [Update q]: _update_model, q being the parameters after
    updateModel, None when the interval skips it (bo.py:247-261). *)
Inductive step := Begin | Update (q : option P).
(** bo.py:263-267 _save_model_parameter_values.  get_model_parameters is np.atleast_2d(self.model[:]): [shares] tells whether model[:] of the
    library is a view of its parameter array or a copy.  np.vstack makes a new array. *)
Definition save (shares : bool) (s : rstate) : rstate :=
  match live s with
  | None => s
  | Some p =>
      mk_rstate (live s) (match recorded s with
                          | RNone => if shares then RLive else ROwn [p]
                          | RLive => ROwn [p; p]
                          | ROwn rows => ROwn (rows ++ [p])
                          end)
  end.
(** updateModel writes the new parameters into the array of the surrogate *)
Definition do_step (shares : bool) (s : rstate) (a : step) : rstate :=
  match a with
  | Begin => mk_rstate (live s) RNone
  | Update q => save shares (mk_rstate (match q with Some p => Some p | None => live s end) (recorded s))
  end.
End Record.
Arguments record : clear implicits. Arguments rstate : clear implicits. Arguments step : clear implicits.
