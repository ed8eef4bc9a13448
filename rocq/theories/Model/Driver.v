(** The components the driver builds from a configuration: GPyOpt/interface/driver.py:45-98, 112-119, with the selectors of
    models/__init__.py, acquisitions/__init__.py and core/evaluators/__init__.py.  Definitions only. *)
From Coq Require Import String List ZArith QArith Qcanon Bool.
From Verif.Model Require Import Py Call Config Models Options.
Import ListNotations.
Local Open Scope nat_scope.
Local Open Scope string_scope.

(** del d[k] *)
Definition ddel {A} (k : string) (d : list (string * A)) : list (string * A) := filter (fun kv => negb (String.eqb k (fst kv))) d.
(** A section of the configuration that is copied and loses one key: KeyError when the key is absent, TypeError for anything that is
    not a dictionary (lists, strings, numbers and None do not support the deletion of a string key). *)
Definition without (k : string) (v : json) : res (json * list (string * json)) :=
  match v with
  | JDict d => match dget k d with Some t => Ok (t, ddel k d) | None => Raise KeyError end
  | _ => Raise TypeError
  end.

(** models/__init__.py:11-21 select_model *)
Definition select_model (t : json) : res model_class :=
  match t with
  | JStr n =>
      if String.eqb n "GP" then Ok CGP else if String.eqb n "GP_MCMC" then Ok CGP_MCMC
      else if String.eqb n "RF" then Ok CRF else if String.eqb n "warpGP" then Ok CWarped else Raise PlainException
  | _ => Raise PlainException
  end.
(** Which class's fromConfig a class has: gpmodel.py:46-48; GPModel_MCMC, RFModel and WarpedGPModel derive from BOModel, which has none *)
Definition model_from_config (c : model_class) : option model_class :=
  match c with CGP | CInputWarped => Some CGP | _ => None end.
(** driver.py:45-55 _get_model: the class and its keyword arguments *)
Definition get_model (config : json) : res (model_class * list (string * json)) :=
  m <- jget config "model" ;;
  p <- without "type" m ;;
  c <- select_model (fst p) ;;
  match model_from_config c with
  | None => Raise AttributeError
  | Some c' => _ <- call sig_GPModel 0 (map fst (snd p)) ;; Ok (c', snd p)
  end.

(** acquisitions/__init__.py:14-35 select_acquisition; entropy search is the class [None] *)
Definition select_acquisition (t : json) : res (option aclass) :=
  match t with
  | JStr n =>
      if String.eqb n "EI" then Ok (Some AEI) else if String.eqb n "EI_MCMC" then Ok (Some AEI_MCMC)
      else if String.eqb n "LCB" then Ok (Some ALCB) else if String.eqb n "LCB_MCMC" then Ok (Some ALCB_MCMC)
      else if String.eqb n "MPI" then Ok (Some AMPI) else if String.eqb n "MPI_MCMC" then Ok (Some AMPI_MCMC)
      else if String.eqb n "LP" then Ok (Some ALP) else if String.eqb n "ES" then Ok None else Raise PlainException
  | _ => Raise PlainException
  end.
(** The class built by the fromConfig of a class: EI.py:28-30 and MPI.py:28-30, inherited by EI_mcmc.py:8 and MPI_mcmc.py:8; ES.py:120-122
    raises NotImplementedError; LCB.py, LP.py and base.py have none *)
Definition acquisition_from_config (c : option aclass) : res aclass :=
  match c with
  | Some (AEI | AEI_MCMC) => Ok AEI
  | Some (AMPI | AMPI_MCMC) => Ok AMPI
  | None => Raise NotImplementedError
  | _ => Raise AttributeError
  end.
(** What _get_acquisition returns: the class, its jitter, and the name and the options of the optimizer. *)
Record acq_built := mk_acq_built { ab_class : aclass; ab_jitter : json; ab_optimizer : json; ab_options : list (string * json) }.
(** driver.py:58-71 _get_acquisition; acquisition_optimizer.py:27 takes any keyword except the two parameters already given *)
Definition get_acquisition (config : json) : res acq_built :=
  a <- jget config "acquisition" ;;
  o <- jget a "optimizer" ;;
  p <- without "name" o ;;
  if existsb (fun k => smem k ["self"; "space"; "optimizer"]) (map fst (snd p)) then Raise TypeError
  else
    t <- jget a "type" ;;
    c <- select_acquisition t ;;
    c' <- acquisition_from_config c ;;
    j <- jget a "jitter" ;;
    Ok (mk_acq_built c' j (fst p) (snd p)).

(** core/evaluators/__init__.py:10-20 select_evaluator *)
Definition select_evaluator (t : json) : res eclass :=
  match t with
  | JStr n =>
      if String.eqb n "sequential" then Ok ESequential else if String.eqb n "random" then Ok ERandom
      else if String.eqb n "local_penalization" then Ok ELocalPenalization
      else if String.eqb n "thompson_sampling" then Ok EThompson else Raise PlainException
  | _ => Raise PlainException
  end.
(** sequential.py:15; batch_random.py:18; batch_thompson.py:18; batch_local_penalization.py:17 *)
Definition sig_evaluator (e : eclass) : signature :=
  ("acquisition", false) :: [("batch_size", match e with ESequential => true | _ => false end)].
(** driver.py:73-82 _get_acq_evaluator: the class and the keyword arguments *)
Definition get_evaluator (config : json) : res (eclass * list (string * json)) :=
  a <- jget config "acquisition" ;;
  ev <- jget a "evaluator" ;;
  p <- without "type" ev ;;
  e <- select_evaluator (fst p) ;;
  _ <- call (sig_evaluator e) 1 (map fst (snd p)) ;;
  Ok (e, snd p).

(** driver.py:84-98 _check_stop: [converged], the number of iterations and the elapsed time in seconds.  A limit is a number or 'NA';
    comparing anything else with a number raises TypeError. *)
Definition limit_reached (x : Qc) (limit : json) : res bool :=
  match limit with
  | JNum l => Ok (qcle l x)
  | JBool b => Ok (qcle (if b then q1 else q0) x)
  | JStr s => if String.eqb s "NA" then Ok false else Raise TypeError
  | _ => Raise TypeError
  end.
Definition check_stop (config : json) (iters elapsed : Qc) (converged : bool) : res bool :=
  r <- jget config "resources" ;;
  mi <- jget r "maximum-iterations" ;;
  b1 <- limit_reached iters mi ;;
  mt <- jget r "max-run-time" ;;
  b2 <- limit_reached (elapsed / z2q 60)%Qc mt ;;
  Ok (negb converged || b1 || b2).
(** driver.py:117-118 the time limit handed to run_optimization, in seconds there (bo.py:83, 139); None is np.inf *)
Definition run_time_limit (config : json) : res (option json) :=
  r <- jget config "resources" ;;
  mt <- jget r "max-run-time" ;;
  Ok (match mt with JStr s => if String.eqb s "NA" then None else Some mt | _ => Some mt end).
