(** The header of the file with the parameters of the surrogate (GPyOpt/core/bo.py save_models, GPyOpt/models/gpmodel.py).
    The parameters live in the GP library, which is not part of the repository: a parameter has a name, the labels of its entries and a mark
    whether it is fixed.  The library's answers are arguments: the labels, and whether the flat list of names leaves out the fixed parameters. *)
From Coq Require Import String List Arith.
From Verif.Model Require Import Py Report.
Import ListNotations.
Local Open Scope string_scope.

(** A parameter of the library: its name, one label for each of its entries, and whether it is fixed *)
Record param := mk_param { p_name : string; p_labels : list string; p_fixed : bool }.

(** gpmodel.py:63-76 and 226-238 _create_model: what the kernel, the mean function and the inducing points bring along, then the noise of the
    likelihood, which exact_feval fixes (constrain_fixed) *)
Definition parameters (others : list param) (exact_feval : bool) : list param :=
  app others [mk_param "Gaussian_noise.variance" ["Gaussian_noise.variance"] exact_feval].

(** parameter_names_flat() of the library: the labels of all entries, without those of fixed parameters if [drops] *)
Definition names_flat (drops : bool) (ps : list param) : list string :=
  flat_map p_labels (filter (fun p => negb (andb drops (p_fixed p))) ps).
(** parameter_names() of the library: one name for each parameter *)
Definition names (ps : list param) : list string := map p_name ps.

(** gpmodel.py:167-171 GPModel.get_model_parameters_names, 351-355 GPModel_MCMC.get_model_parameters_names *)
Definition get_model_parameters_names (mcmc drops : bool) (ps : list param) : list string :=
  if mcmc then names ps else names_flat drops ps.

(** bo.py:389-403 save_models with one of the two models *)
Definition models_file (mcmc drops : bool) (ps : list param) (recorded : option mat) : res table :=
  save_models recorded (get_model_parameters_names mcmc drops ps).
