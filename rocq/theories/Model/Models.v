(** The surrogate models of GPyOpt/models: construction, data, copies, hyper-parameter samples.  Definitions only.
    GPy itself (kernels, likelihoods, inference) is outside: here it appears as abstract types and functions. *)
From Coq Require Import String List Bool Arith ZArith.
From Verif.Model Require Import Py Space Objective Call.
Import ListNotations.
Local Open Scope nat_scope.

(** ---------------------------------------------------------------- GPModel_MCMC *)
Section MCMC.
Context {P B : Type}.                    (* a parameter value; the result of one prediction *)
(** gpmodel.py:254-255 hmc_samples: [sample n] are the n rows returned by HMC.sample(num_samples=n); a slice with step 0 raises *)
Definition hmc_samples (sample : nat -> list (list P)) (n_samples n_burnin subsample_interval : nat) : res (list (list P)) :=
  let ss := sample (n_burnin + n_samples * subsample_interval) in
  if Nat.eqb subsample_interval 0 then Raise ValueError else Ok (stride subsample_interval n_burnin ss).
(** model[mask] = s: one value of s for every true of the mask, in order; other lengths raise (broadcasting of a single value is not
    described). *)
Fixpoint overlay (mask : list bool) (s p : list P) : res (list P) :=
  match mask, p with
  | [], [] => match s with [] => Ok [] | _ => Raise ValueError end
  | true :: mask', _ :: p' => match s with v :: s' => q <- overlay mask' s' p' ;; Ok (v :: q) | [] => Raise ValueError end
  | false :: mask', v :: p' => q <- overlay mask' s p' ;; Ok (v :: q)
  | _, _ => Raise IndexError
  end.
(** gpmodel.py:267-270, 286-289, 308-311: _fixes_ is None or the mask of the parameters that are not fixed *)
Definition assign (fixes : option (list bool)) (s p : list P) : res (list P) :=
  match fixes with
  | None => if Nat.eqb (length s) (length p) then Ok s else Raise ValueError
  | Some mask => overlay mask s p
  end.
(** The loops of predict, get_fmin and predict_withGradients (gpmodel.py:257-277, 279-295, 297-324): [pr p] is what the body computes
    with the parameters p.  The state is the parameter array. *)
Fixpoint sample_loop (fixes : option (list bool)) (pr : list P -> res B) (samples : list (list P)) (p : list P) : list P * res (list B) :=
  match samples with
  | [] => (p, Ok [])
  | s :: rest =>
      match assign fixes s p with
      | Raise e => (p, Raise e)
      | Ok p' =>
          match pr p' with
          | Raise e => (p', Raise e)
          | Ok b => match sample_loop fixes pr rest p' with (q, Ok bs) => (q, Ok (b :: bs)) | (q, Raise e) => (q, Raise e) end
          end
      end
  end.
Definition over_hmc (fixes : option (list bool)) (pr : list P -> res B) (samples : list (list P)) (ps : list P) : list P * res (list B) :=
  match sample_loop fixes pr samples ps with
  | (_, Ok bs) => (ps, Ok bs)
  | (q, Raise e) => (q, Raise e)
  end.
End MCMC.

(** gpmodel.py:326-339 GPModel_MCMC.copy: the keyword arguments of the call of GPModel; what follows the call is not reached *)
Definition mcmc_copy_keywords : list string :=
  ["kernel"; "noise_var"; "exact_feval"; "n_samples"; "n_burnin"; "subsample_interval"; "step_size"; "leapfrog_steps"; "verbose"]%string.
Definition mcmc_copy : res unit := call sig_GPModel 0 mcmc_copy_keywords.

(** ---------------------------------------------------------------- GPModel *)
Section GP.
Context {K N F D : Type}.                (* kernels, noise variances, mean functions, data (X, Y) *)
(** The kernel of a GPy model: the one supplied, or the default Matern52 for the data with the ARD flag. *)
Inductive kern := Given (k : K) | Matern52 (d : D) (ard : bool) | CopyOf (k : kern).
(** A GPy model: sparse (with the number of inducing points) or not, the kernel, the noise variance it was given (None: not passed;
    Some None: 1% of the variance of Y), the mean function, the noise constraint, the data, and the optimisations run so far. *)
Inductive optcall := Plain (optimizer : string) (iters : nat) | Restarts (n : nat) (optimizer : string) (iters : nat).
Record gpy_model := mk_gpy { b_inducing : option nat; b_kern : kern; b_noise : option (option N); b_mean : option F; b_exact : bool; b_data : D; b_opts : list optcall }.
Record gpmodel := mk_gp {
  gp_kernel : option kern; gp_noise : option N; gp_exact : bool; gp_optimizer : string; gp_iters : nat; gp_restarts : nat;
  gp_sparse : bool; gp_inducing : nat; gp_verbose : bool; gp_ARD : bool; gp_meanf : option F; gp_model : option gpy_model }.
Definition with_gpy (g : gpmodel) (kn : option kern) (m : gpy_model) : gpmodel :=
  mk_gp kn (gp_noise g) (gp_exact g) (gp_optimizer g) (gp_iters g) (gp_restarts g) (gp_sparse g) (gp_inducing g) (gp_verbose g) (gp_ARD g) (gp_meanf g) (Some m).
(** gpmodel.py:50-76 _create_model *)
Definition create_model (g : gpmodel) (d : D) : gpmodel :=
  let kn := match gp_kernel g with None => Matern52 d (gp_ARD g) | Some k => k end in
  let m := if gp_sparse g then mk_gpy (Some (gp_inducing g)) kn None (gp_meanf g) (gp_exact g) d []
           else mk_gpy None kn (Some (gp_noise g)) (gp_meanf g) (gp_exact g) d [] in
  with_gpy g None m.
(** gpmodel.py:78-93 updateModel *)
Definition updateModel (g : gpmodel) (d : D) : gpmodel :=
  let g := match gp_model g with
           | None => create_model g d
           | Some m => with_gpy g (gp_kernel g) (mk_gpy (b_inducing m) (b_kern m) (b_noise m) (b_mean m) (b_exact m) d (b_opts m))
           end in
  match gp_model g with
  | None => g
  | Some m =>
      if Nat.ltb 0 (gp_iters g) then
        let c := if Nat.eqb (gp_restarts g) 1 then Plain (gp_optimizer g) (gp_iters g) else Restarts (gp_restarts g) (gp_optimizer g) (gp_iters g) in
        with_gpy g (gp_kernel g) (mk_gpy (b_inducing m) (b_kern m) (b_noise m) (b_mean m) (b_exact m) (b_data m) (b_opts m ++ [c]))
      else g
  end.
(** gpmodel.py:144-159 copy: sparse, num_inducing and mean_function are not passed on *)
Definition copy (g : gpmodel) : res gpmodel :=
  match gp_model g with
  | None => Raise AttributeError
  | Some m =>
      let c := mk_gp (Some (CopyOf (b_kern m))) (gp_noise g) (gp_exact g) (gp_optimizer g) (gp_iters g) (gp_restarts g) false 10 (gp_verbose g) (gp_ARD g) None None in
      Ok (updateModel (create_model c (b_data m)) (b_data m))
  end.
End GP.
Arguments kern : clear implicits. Arguments gpy_model : clear implicits. Arguments gpmodel : clear implicits.

(** ---------------------------------------------------------------- InputWarpedGPModel *)
Definition numeric (k : kind) : bool := is_continuous k || is_discrete k.
(** input_warped_gpmodel.py:51-57 warping_indices: [i] runs over the dimensions of the un-expanded variables *)
Fixpoint warping_dims (nm : bool) (dim i : nat) : list nat :=
  match dim with O => [] | S dim' => (if nm then [i] else []) ++ warping_dims nm dim' (S i) end.
Fixpoint warping_from (vs : list variable) (i : nat) : list nat :=
  match vs with [] => [] | v :: r => warping_dims (numeric (v_kind v)) (v_dim v) i ++ warping_from r (i + v_dim v) end.
Definition warping_indices (sp : space) : list nat := warping_from (sp_vars sp) 0.

(** ---------------------------------------------------------------- which classes have get_model_parameters (bo.py:263-267 calls it) *)
Inductive model_class := CGP | CGP_MCMC | CRF | CWarped | CInputWarped.
(** gpmodel.py:161-165, 345-349; rfmodel.py, warpedgpmodel.py and base.py:9-36 have none; InputWarpedGPModel inherits from GPModel *)
Definition has_get_model_parameters (c : model_class) : bool := match c with CRF | CWarped => false | _ => true end.
(** arguments_manager.py:78-142 model_creator: None where the if-chain falls through *)
Definition model_creator (model_type : string) : option (model_class * bool) :=
  if String.eqb model_type "GP" then Some (CGP, false)
  else if String.eqb model_type "sparseGP" then Some (CGP, true)
  else if String.eqb model_type "GP_MCMC" then Some (CGP_MCMC, false)
  else if String.eqb model_type "RF" then Some (CRF, false)
  else if String.eqb model_type "warpedGP" then Some (CWarped, false)
  else if String.eqb model_type "input_warped_GP" then Some (CInputWarped, false)
  else None.
