(** How Python binds the arguments of a call to a function's parameters.  Definitions only. *)
From Coq Require Import String List Bool Arith.
From Verif.Model Require Import Py.
Import ListNotations.
Local Open Scope nat_scope.

(** A signature without *args and **kwargs: the parameters after self, each with a flag telling whether it has a default. *)
Definition signature := list (string * bool).
Definition names (sg : signature) : list string := map fst sg.
Definition smem (s : string) (l : list string) : bool := existsb (String.eqb s) l.
(** A call with [pos] positional arguments and the keyword arguments [kws]: too many positional arguments, an unknown keyword, a
    parameter given twice or a parameter without value raise TypeError. *)
Definition call (sg : signature) (pos : nat) (kws : list string) : res unit :=
  let given := firstn pos (names sg) in
  if negb (Nat.leb pos (length sg)) then Raise TypeError
  else if negb (forallb (fun k => smem k (names sg)) kws) then Raise TypeError
  else if existsb (fun k => smem k given) kws then Raise TypeError
  else if negb (forallb (fun p => smem (fst p) given || smem (fst p) kws || snd p) sg) then Raise TypeError
  else Ok tt.

(** ---- The signatures used below *)
Definition plain (l : list string) : signature := map (fun s => (s, false)) l.
Definition defaulted (l : list string) : signature := map (fun s => (s, true)) l.
(** objective.py:36 SingleObjective.__init__ *)
Definition sig_SingleObjective : signature :=
  plain ["func"%string] ++ defaulted ["num_cores"; "objective_name"; "batch_type"; "space"]%string.
(** gpmodel.py:32 GPModel.__init__ *)
Definition sig_GPModel : signature :=
  defaulted ["kernel"; "noise_var"; "exact_feval"; "optimizer"; "max_iters"; "optimize_restarts"; "sparse"; "num_inducing"; "verbose"; "ARD"; "mean_function"]%string.
(** gpmodel.py:201 GPModel_MCMC.__init__ *)
Definition sig_GPModel_MCMC : signature :=
  defaulted ["kernel"; "noise_var"; "exact_feval"; "n_samples"; "n_burnin"; "subsample_interval"; "step_size"; "leapfrog_steps"; "verbose"]%string.
