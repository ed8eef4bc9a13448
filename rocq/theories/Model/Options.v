(** The choice of the components: GPyOpt/util/arguments_manager.py and GPyOpt/methods/bayesian_optimization.py:113-161.
    Definitions only. *)
From Coq Require Import String List ZArith QArith Qcanon Bool.
From Verif.Model Require Import Py Call Config Models.
Import ListNotations.
Local Open Scope nat_scope.
Local Open Scope string_scope.

(** A value passed to a constructor: a plain value, or one of the objects of the construction. *)
Inductive value := VVal (v : json) | VModel | VSpace | VOptimizer | VCost | VAcquisition.
(** self.kwargs.get(k, default) *)
Definition kget (kw : list (string * json)) (k : string) (d : json) : value := VVal (match dget k kw with Some v => v | None => d end).
(** Positional arguments bound to parameter names. *)
Definition bound (sg : list string) (args : list value) : list (string * value) := combine sg args.

(** A constructed component: its class and the parameters it was given. *)
Inductive aclass := AEI | AEI_MCMC | AMPI | AMPI_MCMC | ALCB | ALCB_MCMC | ALP.
Inductive eclass := ESequential | ERandom | EThompson | ELocalPenalization.
Definition component (C : Type) := (C * list (string * value))%type.

(** The parameter names of the constructors: gpmodel.py:32, 201; input_warped_gpmodel.py:47; EI.py:23; LCB.py:27; LP.py:26;
    evaluators *)
Definition par_GP := names sig_GPModel.
Definition par_MCMC := names sig_GPModel_MCMC.
Definition par_input_warped := ["space"; "warping_function"; "kernel"; "noise_var"; "exact_feval"; "optimizer"; "max_iters"; "optimize_restarts"; "verbose"; "ARD"].
Definition par_improvement := ["model"; "space"; "optimizer"; "cost_withGradients"; "jitter"].
Definition par_LCB := ["model"; "space"; "optimizer"; "cost_withGradients"; "exploration_weight"].
Definition par_LP := ["model"; "space"; "optimizer"; "acquisition"; "transform"].
Definition par_batch := ["acquisition"; "batch_size"].

Section Choice.
Variable kw : list (string * json).
(** arguments_manager.py:78-142 model_creator; None where the if-chain falls through *)
Definition model_creator (model_type : string) (exact_feval : json) : option (component model_class) :=
  let kernel := kget kw "kernel" JNull in
  let ARD := kget kw "ARD" (JBool false) in
  let verbosity_model := kget kw "verbosity_model" (JBool false) in
  let noise_var := kget kw "noise_var" JNull in
  let model_optimizer_type := kget kw "model_optimizer_type" (JStr "lbfgs") in
  let max_iters := kget kw "max_iters" (num 1000) in
  let optimize_restarts := kget kw "optimize_restarts" (num 5) in
  let gp sparse := Some (CGP, bound par_GP [kernel; noise_var; VVal exact_feval; model_optimizer_type; max_iters; optimize_restarts;
                                            VVal (JBool sparse); kget kw "num_inducing" (num 10); verbosity_model; ARD]) in
  if String.eqb model_type "GP" then gp false
  else if String.eqb model_type "sparseGP" then gp true
  else if String.eqb model_type "GP_MCMC" then
    Some (CGP_MCMC, bound par_MCMC [kernel; noise_var; VVal exact_feval; kget kw "n_samples" (num 10); kget kw "n_burnin" (num 100);
            kget kw "subsample_interval" (num 10); kget kw "step_size" (JNum (Q2Qc (1 # 10))); kget kw "leapfrog_steps" (num 20); verbosity_model])
  else if String.eqb model_type "RF" then Some (CRF, [("verbose", verbosity_model)])
  else if String.eqb model_type "warpedGP" then Some (CWarped, [])
  else if String.eqb model_type "input_warped_GP" then
    Some (CInputWarped, bound par_input_warped [VSpace; VVal JNull; kernel; noise_var; VVal exact_feval; model_optimizer_type; max_iters;
            optimize_restarts; verbosity_model; ARD])
  else None.

(** The model object: a class of this package, a user-defined one (with its MCMC_sampler attribute), or None. *)
Inductive model_obj := Built (m : component model_class) | UserModel (mcmc : bool) | NoModel.
(** base.py:12; gpmodel.py:198 *)
Definition MCMC_sampler (m : model_obj) : bool :=
  match m with Built (CGP_MCMC, _) => true | UserModel b => b | _ => false end.
(** acquisitions/base.py:18-22: reads an attribute of the model; EI_mcmc.py:27, MPI_mcmc.py:27, LCB_mcmc.py:24: assert *)
Definition construct (mcmc : bool) (m : model_obj) (a : component aclass) : res (component aclass) :=
  match m with
  | NoModel => Raise AttributeError
  | _ => if mcmc && negb (MCMC_sampler m) then Raise AssertionError else Ok a
  end.
(** arguments_manager.py:42-75 acquisition_creator *)
Definition acquisition_creator (acquisition_type : option string) (m : model_obj) : res (component aclass) :=
  let jitter := kget kw "acquisition_jitter" (JNum (Q2Qc (1 # 100))) in
  let weight := kget kw "acquisition_weight" (num 2) in
  let improvement c := (c, bound par_improvement [VModel; VSpace; VOptimizer; VCost; jitter]) in
  let lcb c := (c, bound par_LCB [VModel; VSpace; VOptimizer; VVal JNull; weight]) in
  match acquisition_type with
  | None => construct false m (improvement AEI)
  | Some t =>
      if String.eqb t "EI" then construct false m (improvement AEI)
      else if String.eqb t "EI_MCMC" then construct true m (improvement AEI_MCMC)
      else if String.eqb t "MPI" then construct false m (improvement AMPI)
      else if String.eqb t "MPI_MCMC" then construct true m (improvement AMPI_MCMC)
      else if String.eqb t "LCB" then construct false m (lcb ALCB)
      else if String.eqb t "LCB_MCMC" then construct true m (lcb ALCB_MCMC)
      else Raise PlainException
  end.

(** The acquisition object: built here, or an instance of AcquisitionBase passed by the user ([lp]: it is an AcquisitionLP). *)
Inductive acq_obj := BuiltAcq (a : component aclass) | UserAcq (lp : bool).
Definition is_LP (a : acq_obj) : bool := match a with BuiltAcq (ALP, _) => true | BuiltAcq _ => false | UserAcq lp => lp end.
(** arguments_manager.py:19-40 evaluator_creator: the class, the batch size it was given, and the transformation of the penalised
    acquisition; Ok None where the if-chain falls through.  AcquisitionLP reads an attribute of the model (base.py:22)
    and calls transform.lower() (LP.py:30). *)
Definition evaluator_creator (evaluator_type : option string) (a : acq_obj) (batch_size : Z) (model_type : string) (m : model_obj)
  : res (option (component eclass)) :=
  let transformation := kget kw "acquisition_transformation" (JStr "none") in
  let is t := match evaluator_type with Some e => String.eqb e t | None => false end in
  let none := match evaluator_type with None => true | Some _ => false end in
  let bs := VVal (num batch_size) in
  if Z.eqb batch_size 1 || is "sequential" then Ok (Some (ESequential, [("acquisition", VAcquisition)]))
  else if Z.ltb 1 batch_size && (is "random" || none) then Ok (Some (ERandom, bound par_batch [VAcquisition; bs]))
  else if Z.ltb 1 batch_size && is "thompson_sampling" then Ok (Some (EThompson, bound par_batch [VAcquisition; bs]))
  else if is "local_penalization" then
    if negb (existsb (String.eqb model_type) ["GP"; "sparseGP"; "GP_MCMC"; "warpedGP"]) then Raise InvalidConfigError
    else if is_LP a then Raise UnboundLocalError
    else match m, transformation with
         | NoModel, _ => Raise AttributeError
         | _, VVal (JStr _) => Ok (Some (ELocalPenalization, ("transform", transformation) :: bound par_batch [VAcquisition; bs]))
         | _, _ => Raise AttributeError
         end
  else Ok None.

(** bayesian_optimization.py:121-161, 171-181: the model, the acquisition and the evaluator.  [user_model] and [user_acq] are the
    entries 'model' and 'acquisition' of the keyword arguments when they are instances of the right base class; everything between
    these choices is not described here. *)
Definition components (user_model : option bool) (user_acq : option bool) (model_type : string) (exact_feval : json)
  (acquisition_type evaluator_type : option string) (batch_size : Z) : res (model_obj * acq_obj * option (component eclass)) :=
  let m := match user_model with
           | Some mcmc => UserModel mcmc
           | None => match model_creator model_type exact_feval with Some c => Built c | None => NoModel end
           end in
  let model_type := match user_model with Some _ => "User defined model used." | None => model_type end in
  a <- match user_acq with Some lp => Ok (UserAcq lp) | None => a <- acquisition_creator acquisition_type m ;; Ok (BuiltAcq a) end ;;
  e <- evaluator_creator evaluator_type a batch_size model_type m ;;
  Ok (m, a, e).
End Choice.

(** bayesian_optimization.py:76-86: verbosity_model and the other named parameters of the constructor are not in **kwargs *)
Definition named_parameters : list string :=
  ["f"; "domain"; "constraints"; "cost_withGradients"; "model_type"; "X"; "Y"; "initial_design_numdata"; "initial_design_type"; "acquisition_type";
   "normalize_Y"; "exact_feval"; "acquisition_optimizer_type"; "model_update_interval"; "evaluator_type"; "batch_size"; "num_cores"; "verbosity";
   "verbosity_model"; "maximize"; "de_duplication"].
Definition extra_keywords (given : list (string * json)) : list (string * json) := filter (fun p => negb (smem (fst p) named_parameters)) given.
