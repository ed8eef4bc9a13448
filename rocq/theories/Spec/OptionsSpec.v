(** Which option has to reach which parameter, and which option strings select something. *)
From Coq Require Import String List ZArith QArith Qcanon Bool.
From Verif.Model Require Import Py Call Config Models Options.
Import ListNotations.
Local Open Scope string_scope.
Local Open Scope list_scope.

(** (keyword argument of BayesianOptimization, parameter of the constructor, default) *)
Definition rule := (string * string * json)%type.
Definition obeys (kw : list (string * json)) (ps : list (string * value)) (r : rule) : Prop :=
  match r with (o, p, d) => dget p ps = Some (VVal (match dget o kw with Some v => v | None => d end)) end.
Definition common_rules : list rule := [("kernel", "kernel", JNull); ("noise_var", "noise_var", JNull); ("verbosity_model", "verbose", JBool false)].
Definition gp_rules : list rule := common_rules ++
  [("model_optimizer_type", "optimizer", JStr "lbfgs"); ("max_iters", "max_iters", num 1000); ("optimize_restarts", "optimize_restarts", num 5); ("ARD", "ARD", JBool false)].
Definition mcmc_rules : list rule := common_rules ++
  [("n_samples", "n_samples", num 10); ("n_burnin", "n_burnin", num 100); ("subsample_interval", "subsample_interval", num 10);
   ("step_size", "step_size", JNum (Q2Qc (1 # 10))); ("leapfrog_steps", "leapfrog_steps", num 20)].
Definition model_rules (model_type : string) : list rule :=
  if String.eqb model_type "GP" || String.eqb model_type "sparseGP" then ("num_inducing", "num_inducing", num 10) :: gp_rules
  else if String.eqb model_type "GP_MCMC" then mcmc_rules
  else if String.eqb model_type "input_warped_GP" then gp_rules
  else if String.eqb model_type "RF" then [("verbosity_model", "verbose", JBool false)]
  else [].
Definition model_types : list string := ["GP"; "sparseGP"; "GP_MCMC"; "RF"; "warpedGP"; "input_warped_GP"].
(** bayesian_optimization.py:33-39, the docstring *)
Definition documented_model_types : list string := ["GP"; "GP_MCMC"; "sparseGP"; "warperdGP"; "InputWarpedGP"; "RF"].
Definition plain_acquisitions : list string := ["EI"; "MPI"; "LCB"].
Definition mcmc_acquisitions : list string := ["EI_MCMC"; "MPI_MCMC"; "LCB_MCMC"].
Definition penalizable : list string := ["GP"; "sparseGP"; "GP_MCMC"; "warpedGP"].
Definition is_str (v : json) : Prop := exists s, v = JStr s.
