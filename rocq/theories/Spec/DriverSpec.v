(** What a configuration selects. *)
From Coq Require Import String List QArith Qcanon.
From Verif.Model Require Import Py Config Models Options.
Import ListNotations.
Local Open Scope string_scope.

(** [args] are the entries of [d] under other keys than [k]. *)
Definition others (k : string) (d args : list (string * json)) : Prop := forall k' v, In (k', v) args <-> In (k', v) d /\ k' <> k.
(** The parameters of GPModel. *)
Definition gp_parameters : list string :=
  ["kernel"; "noise_var"; "exact_feval"; "optimizer"; "max_iters"; "optimize_restarts"; "sparse"; "num_inducing"; "verbose"; "ARD"; "mean_function"].
(** The evaluator with a given name. *)
Inductive evaluator_named : string -> eclass -> Prop :=
| named_sequential : evaluator_named "sequential" ESequential
| named_random : evaluator_named "random" ERandom
| named_penalization : evaluator_named "local_penalization" ELocalPenalization
| named_thompson : evaluator_named "thompson_sampling" EThompson.
(** The acquisition that is built for a given name: the sampling variants give the plain acquisition. *)
Inductive acquisition_built : string -> aclass -> Prop :=
| built_EI : acquisition_built "EI" AEI
| built_EI_MCMC : acquisition_built "EI_MCMC" AEI
| built_MPI : acquisition_built "MPI" AMPI
| built_MPI_MCMC : acquisition_built "MPI_MCMC" AMPI.
