(** C108: which components a configuration builds.  Specification: Spec/DriverSpec.v, Spec/ConfigSpec.v.  Model: Model/Driver.v. *)
From Coq Require Import String List ZArith QArith Qcanon Bool.
From Verif.Model Require Import Py Space Call Config Models Options Driver.
From Verif.Spec Require Import ConfigSpec DriverSpec.
From Verif.Proof Require Import Num ConfigP DriverP.
Import ListNotations.
Local Open Scope nat_scope.
Local Open Scope string_scope.
Local Open Scope list_scope.

(** ---------------------------------------------------------------- C108 *)
(** A model is only ever a Gaussian process, with exactly the other entries of the section as its parameters. *)
Theorem C108_model : forall config c args, get_model config = Ok (c, args) ->
  c = CGP /\ exists d, find config ["model"] = Some (JDict d) /\ dget "type" d = Some (JStr "GP") /\ others "type" d args /\
    Forall (fun kv => In (fst kv) gp_parameters) args.
Proof. exact model_inv. Qed.
Print Assumptions C108_model.
Theorem C108_model_builds : forall config d, find config ["model"] = Some (JDict d) -> dget "type" d = Some (JStr "GP") ->
  (forall k v, In (k, v) d -> k = "type" \/ In k gp_parameters) -> exists args, get_model config = Ok (CGP, args).
Proof. exact model_builds. Qed.
Print Assumptions C108_model_builds.
(** "Every model that can be selected can be built" fails for all but one of the names. *)
Theorem C108_model_types_refuted : forall config d t, find config ["model"] = Some (JDict d) -> dget "type" d = Some (JStr t) ->
  (In t ["GP_MCMC"; "RF"; "warpGP"] -> get_model config = Raise AttributeError) /\
  (~ In t ["GP"; "GP_MCMC"; "RF"; "warpGP"] -> get_model config = Raise PlainException).
Proof. exact model_types. Qed.
Print Assumptions C108_model_types_refuted.

Theorem C108_acquisition : forall config a, get_acquisition config = Ok a ->
  exists t d, find config ["acquisition"; "type"] = Some (JStr t) /\ acquisition_built t (ab_class a) /\
    find config ["acquisition"; "jitter"] = Some (ab_jitter a) /\
    find config ["acquisition"; "optimizer"] = Some (JDict d) /\ dget "name" d = Some (ab_optimizer a) /\ others "name" d (ab_options a).
Proof. exact acquisition_inv. Qed.
Print Assumptions C108_acquisition.
Theorem C108_acquisition_builds : forall config t c d n j, find config ["acquisition"; "type"] = Some (JStr t) -> acquisition_built t c ->
  find config ["acquisition"; "jitter"] = Some j -> find config ["acquisition"; "optimizer"] = Some (JDict d) -> dget "name" d = Some n ->
  (forall k v, In (k, v) d -> ~ In k ["self"; "space"; "optimizer"]) ->
  exists options, get_acquisition config = Ok (mk_acq_built c j n options).
Proof. exact acquisition_builds. Qed.
Print Assumptions C108_acquisition_builds.
Theorem C108_acquisition_types_refuted : forall config t d n, find config ["acquisition"; "type"] = Some (JStr t) ->
  find config ["acquisition"; "optimizer"] = Some (JDict d) -> dget "name" d = Some n ->
  (forall k v, In (k, v) d -> ~ In k ["self"; "space"; "optimizer"]) ->
  (In t ["LCB"; "LCB_MCMC"; "LP"] -> get_acquisition config = Raise AttributeError) /\
  (t = "ES" -> get_acquisition config = Raise NotImplementedError) /\
  (~ In t ["EI"; "EI_MCMC"; "LCB"; "LCB_MCMC"; "MPI"; "MPI_MCMC"; "LP"; "ES"] -> get_acquisition config = Raise PlainException).
Proof. exact acquisition_types. Qed.
Print Assumptions C108_acquisition_types_refuted.
(** The sampling acquisitions can be selected; what is built is the plain one. *)
Theorem C108_mcmc_refuted : forall new, new = JDict [("acquisition", JDict [("type", JStr "EI_MCMC"); ("optimizer", JDict [("name", JStr "lbfgs")])])] ->
  exists config a, parser (Some new) = Ok config /\ get_acquisition config = Ok a /\ ab_class a = AEI.
Proof. intros new ->. eexists. eexists. split; [vm_compute; reflexivity|]. split; vm_compute; reflexivity. Qed.
Print Assumptions C108_mcmc_refuted.

Theorem C108_evaluator : forall config e args, get_evaluator config = Ok (e, args) ->
  exists t d, find config ["acquisition"; "evaluator"] = Some (JDict d) /\ dget "type" d = Some (JStr t) /\ evaluator_named t e /\ others "type" d args /\
    Forall (fun kv => fst kv = "batch_size") args /\ (e = ESequential \/ exists b, In ("batch_size", b) args).
Proof. exact evaluator_inv. Qed.
Print Assumptions C108_evaluator.
Theorem C108_evaluator_builds : forall config t e d, find config ["acquisition"; "evaluator"] = Some (JDict d) -> dget "type" d = Some (JStr t) ->
  evaluator_named t e -> (forall k v, In (k, v) d -> k = "type" \/ k = "batch_size") -> (e = ESequential \/ exists b, In ("batch_size", b) d) ->
  exists args, get_evaluator config = Ok (e, args).
Proof. exact evaluator_builds. Qed.
Print Assumptions C108_evaluator_builds.

(** A file that does not mention a section gets the components of the default configuration. *)
Theorem C108_defaults : forall new config, proper new -> parser (Some new) = Ok config ->
  (find new ["model"] = None -> get_model config = Ok (CGP, [("num_inducing", num 10)])) /\
  (find new ["acquisition"] = None -> get_acquisition config = Ok (mk_acq_built AEI (JNum (Q2Qc (1 # 100))) (JStr "lbfgs") []) /\
     get_evaluator config = Ok (ESequential, [])).
Proof. exact untouched_components. Qed.
Print Assumptions C108_defaults.

(** The stopping test of the driver counts minutes; the limit is handed to the loop, which counts seconds. *)
Theorem C108_check_stop : forall config mi mt iters elapsed converged,
  find config ["resources"; "maximum-iterations"] = Some (JNum mi) -> find config ["resources"; "max-run-time"] = Some (JNum mt) ->
  exists b, check_stop config iters elapsed converged = Ok b /\
    (b = true <-> converged = false \/ (mi <= iters)%Qc \/ (z2q 60 * mt <= elapsed)%Qc).
Proof. exact check_stop_spec. Qed.
Print Assumptions C108_check_stop.
(** 'NA' is no limit, here and for the loop; a number is handed on as it is. *)
Theorem C108_no_limits : forall config iters elapsed converged, find config ["resources"; "max-run-time"] = Some (JStr "NA") ->
  run_time_limit config = Ok None /\
  (find config ["resources"; "maximum-iterations"] = Some (JStr "NA") -> check_stop config iters elapsed converged = Ok (negb converged)) /\
  (forall mi, find config ["resources"; "maximum-iterations"] = Some (JNum mi) ->
     exists b, check_stop config iters elapsed converged = Ok b /\ (b = true <-> converged = false \/ (mi <= iters)%Qc)).
Proof. exact no_limits. Qed.
Print Assumptions C108_no_limits.
(** Any other limit stops the driver with TypeError. *)
Theorem C108_bad_limit : forall config l iters elapsed converged, find config ["resources"; "maximum-iterations"] = Some l ->
  (forall q, l <> JNum q) -> (forall b, l <> JBool b) -> l <> JStr "NA" -> check_stop config iters elapsed converged = Raise TypeError.
Proof. exact bad_limit. Qed.
Print Assumptions C108_bad_limit.
Theorem C108_time_limit : forall config l, find config ["resources"; "max-run-time"] = Some (JNum l) -> run_time_limit config = Ok (Some (JNum l)).
Proof. exact some_limit. Qed.
Print Assumptions C108_time_limit.
Theorem C108_minutes_refuted : exists config limit elapsed, run_time_limit config = Ok (Some (JNum limit)) /\ (limit < elapsed)%Qc /\
  check_stop config q0 elapsed true = Ok false.
Proof.
  exists (JDict [("resources", JDict [("maximum-iterations", num 20); ("max-run-time", num 2)])]), (z2q 2), (z2q 90).
  split; [reflexivity|]. split; [reflexivity|]. vm_compute. reflexivity.
Qed.
Print Assumptions C108_minutes_refuted.

Definition batch_file : json := JDict
  [("model", JDict [("type", JStr "GP"); ("ARD", JBool true)]);
   ("acquisition", JDict [("type", JStr "MPI"); ("optimizer", JDict [("name", JStr "CMA")]); ("evaluator", JDict [("type", JStr "random"); ("batch_size", num 4)])])].
Example C108_nonvacuous : exists config, parser (Some batch_file) = Ok config /\
  get_model config = Ok (CGP, [("num_inducing", num 10); ("ARD", JBool true)]) /\
  get_acquisition config = Ok (mk_acq_built AMPI (JNum (Q2Qc (1 # 100))) (JStr "CMA") []) /\
  get_evaluator config = Ok (ERandom, [("batch_size", num 4)]) /\
  check_stop config (z2q 20) q0 true = Ok true /\ check_stop config (z2q 19) (z2q 100000) true = Ok false.
Proof. eexists. split; [vm_compute; reflexivity|]. repeat split; vm_compute; reflexivity. Qed.
