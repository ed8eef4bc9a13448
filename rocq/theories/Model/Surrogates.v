(** The surrogates other than GPModel: GPyOpt/models/warpedgpmodel.py, input_warped_gpmodel.py, rfmodel.py and the updates of
    GPModel_MCMC in gpmodel.py.  Definitions only.  GPy and scikit-learn appear as abstract types and functions. *)
From Coq Require Import Reals.
From Coq Require Import String List Bool Arith ZArith QArith Qcanon.
From Verif.Model Require Import Py Space Objective Models AcqR.
Import ListNotations.
Local Open Scope nat_scope.

(** What GPyOpt asks of the noise variance of a GPy model: constrain_fixed(1e-6), constrain_bounded(1e-9, 1e6), constrain_positive. *)
Inductive noise_constraint := NFixed | NBounded | NPositive.
(** The data of an update: X_all, Y_all. *)
Definition data : Type := mat * vec.
Definition ncols (d : data) : nat := List.length (nth 0 (fst d) []).

Section GPy.
Context {K N W : Type}.            (* kernels, noise variances, warping functions *)
(** A kernel: the one supplied, or the default of the class for a number of columns. *)
Inductive kernel := Supplied (k : K) | Matern32 (dim : nat) | Matern52d (dim : nat) (ard : bool) | RBF (dim : nat).

(** ---------------------------------------------------------------- WarpedGPModel *)
(** A GPy WarpedGP: the arguments of its constructor, the noise constraint, its data and the optimisations run on it
    (optimizer, max_iters, messages). *)
Record warped_gp := mk_wgp { w_kern : kernel; w_fun : option W; w_terms : nat; w_constraint : noise_constraint; w_data : data; w_opts : list (string * nat * bool) }.
(** warpedgpmodel.py:19-31 __init__ *)
Record warped := mk_warped {
  wm_kernel : option kernel; wm_noise : option N; wm_exact : bool; wm_optimizer : string; wm_iters : nat; wm_restarts : nat;
  wm_fun : option W; wm_terms : nat; wm_verbose : bool; wm_model : option warped_gp }.
Definition with_wgp (g : warped) (kn : option kernel) (m : warped_gp) : warped :=
  mk_warped kn (wm_noise g) (wm_exact g) (wm_optimizer g) (wm_iters g) (wm_restarts g) (wm_fun g) (wm_terms g) (wm_verbose g) (Some m).
(** warpedgpmodel.py:33-50 _create_model; the noise_var computed in line 42 is not used, so it does not appear *)
Definition warped_create (g : warped) (d : data) : warped :=
  let kn := match wm_kernel g with None => Matern32 (ncols d) | Some k => k end in
  with_wgp g (Some kn) (mk_wgp kn (wm_fun g) (wm_terms g) (if wm_exact g then NFixed else NPositive) d []).
(** warpedgpmodel.py:52-58 updateModel *)
Definition warped_update (g : warped) (d : data) : warped :=
  let g := match wm_model g with
           | None => warped_create g d
           | Some m => with_wgp g (wm_kernel g) (mk_wgp (w_kern m) (w_fun m) (w_terms m) (w_constraint m) d (w_opts m))
           end in
  match wm_model g with
  | None => g
  | Some m => with_wgp g (wm_kernel g) (mk_wgp (w_kern m) (w_fun m) (w_terms m) (w_constraint m) (w_data m) (w_opts m ++ [(wm_optimizer g, wm_iters g, wm_verbose g)]))
  end.

(** ---------------------------------------------------------------- InputWarpedGPModel *)
(** X.min(axis=0), X.max(axis=0) of a non-empty matrix *)
Definition lower (a b : Qc) : Qc := if qcle a b then a else b.
Definition upper (a b : Qc) : Qc := if qcle a b then b else a.
Fixpoint vpick (f : Qc -> Qc -> Qc) (a b : vec) : vec := match a, b with x :: a', y :: b' => f x y :: vpick f a' b' | _, _ => [] end.
Definition axis0 (f : Qc -> Qc -> Qc) (X : mat) : vec := match X with [] => [] | r :: X' => fold_left (vpick f) X' r end.
(** A GPy InputWarpedGP: the arguments of its constructor, the noise constraint, its data and the optimisations run on it. *)
Record iwarped_gp := mk_igp { i_kern : kernel; i_fun : option W; i_indices : list nat; i_Xmin : vec; i_Xmax : vec;
  i_constraint : noise_constraint; i_data : data; i_opts : list optcall }.
(** input_warped_gpmodel.py:47-68 __init__; the indices are [warping_indices] of Model/Models.v *)
Record iwarped := mk_iwarped {
  im_indices : list nat; im_fun : option W; im_kernel : option kernel; im_noise : option N; im_exact : bool; im_optimizer : string;
  im_iters : nat; im_restarts : nat; im_verbose : bool; im_ARD : bool; im_model : option iwarped_gp }.
Definition new_iwarped (sp : space) fn kn noise exact opt iters restarts verbose ard : iwarped :=
  mk_iwarped (warping_indices sp) fn kn noise exact opt iters restarts verbose ard None.
Definition with_igp (g : iwarped) (kn : option kernel) (m : iwarped_gp) : iwarped :=
  mk_iwarped (im_indices g) (im_fun g) kn (im_noise g) (im_exact g) (im_optimizer g) (im_iters g) (im_restarts g) (im_verbose g) (im_ARD g) (Some m).
(** input_warped_gpmodel.py:70-88 _create_model; the noise_var computed in line 79 is not used *)
Definition iwarped_create (g : iwarped) (d : data) : iwarped :=
  let kn := match im_kernel g with None => Matern52d (ncols d) (im_ARD g) | Some k => k end in
  with_igp g (Some kn) (mk_igp kn (im_fun g) (im_indices g) (axis0 lower (fst d)) (axis0 upper (fst d)) (if im_exact g then NFixed else NBounded) d []).
(** gpmodel.py:78-93 updateModel, inherited *)
Definition iwarped_update (g : iwarped) (d : data) : iwarped :=
  let g := match im_model g with
           | None => iwarped_create g d
           | Some m => with_igp g (im_kernel g) (mk_igp (i_kern m) (i_fun m) (i_indices m) (i_Xmin m) (i_Xmax m) (i_constraint m) d (i_opts m))
           end in
  match im_model g with
  | None => g
  | Some m =>
      if Nat.ltb 0 (im_iters g) then
        let c := if Nat.eqb (im_restarts g) 1 then Plain (im_optimizer g) (im_iters g) else Restarts (im_restarts g) (im_optimizer g) (im_iters g) in
        with_igp g (im_kernel g) (mk_igp (i_kern m) (i_fun m) (i_indices m) (i_Xmin m) (i_Xmax m) (i_constraint m) (i_data m) (i_opts m ++ [c]))
      else g
  end.

(** ---------------------------------------------------------------- GPModel_MCMC *)
Section Mcmc.
Context {P Rnd : Type}.            (* parameter values; the random numbers of one update *)
Variable init : kernel -> option N -> data -> list P.                     (* GPRegression(X, Y, kernel, noise_var): its parameters *)
Variable optimise : data -> list P -> list P.                              (* model.optimize(max_iters = 200) *)
Variable perturb : Rnd -> list P -> list P.                                (* gpmodel.py:252 *)
(** HMC(model, stepsize).sample(num_samples, hmc_iters): the samples, and the parameters in which it leaves the model *)
Variable hmc : Rnd -> data -> Qc -> nat -> nat -> list P -> list (list P) * list P.
Record mcmc_gp := mk_mgp { m_kern : kernel; m_noise : option N; m_constraint : noise_constraint; m_data : data; m_params : list P }.
(** gpmodel.py:201-211 __init__ (hmc_samples is set by updateModel only) *)
Record mcmc := mk_mcmc {
  mm_kernel : option kernel; mm_noise : option N; mm_exact : bool; mm_samples : nat; mm_interval : nat; mm_burnin : nat; mm_step : Qc; mm_leapfrog : nat;
  mm_model : option mcmc_gp; mm_hmc : option (list (list P)) }.
Definition with_mgp (g : mcmc) (kn : option kernel) (m : mcmc_gp) (ss : option (list (list P))) : mcmc :=
  mk_mcmc kn (mm_noise g) (mm_exact g) (mm_samples g) (mm_interval g) (mm_burnin g) (mm_step g) (mm_leapfrog g) (Some m) ss.
(** gpmodel.py:213-238 _create_model; the priors are the same for every model and left out *)
Definition mcmc_create (g : mcmc) (d : data) : mcmc :=
  let kn := match mm_kernel g with None => RBF (ncols d) | Some k => k end in
  with_mgp g None (mk_mgp kn (mm_noise g) (if mm_exact g then NFixed else NPositive) d (init kn (mm_noise g) d)) (mm_hmc g).
(** gpmodel.py:240-255 updateModel: the model afterwards, and the exception if the slice of the samples is not possible *)
Definition mcmc_update (g : mcmc) (z : Rnd) (d : data) : mcmc * res unit :=
  let g := match mm_model g with
           | None => mcmc_create g d
           | Some m => with_mgp g (mm_kernel g) (mk_mgp (m_kern m) (m_noise m) (m_constraint m) d (m_params m)) (mm_hmc g)
           end in
  match mm_model g with
  | None => (g, Ok tt)
  | Some m =>
      let p := perturb z (optimise (m_data m) (m_params m)) in
      let '(_, q) := hmc z (m_data m) (mm_step g) (mm_burnin g + mm_samples g * mm_interval g) (mm_leapfrog g) p in
      let m' := mk_mgp (m_kern m) (m_noise m) (m_constraint m) (m_data m) q in
      match hmc_samples (fun n => fst (hmc z (m_data m) (mm_step g) n (mm_leapfrog g) p)) (mm_samples g) (mm_burnin g) (mm_interval g) with
      | Ok ss => (with_mgp g (mm_kernel g) m' (Some ss), Ok tt)
      | Raise e => (with_mgp g (mm_kernel g) m' (mm_hmc g), Raise e)
      end
  end.
End Mcmc.
End GPy.
Arguments kernel : clear implicits. Arguments warped_gp : clear implicits. Arguments warped : clear implicits.
Arguments iwarped_gp : clear implicits. Arguments iwarped : clear implicits. Arguments mcmc_gp : clear implicits. Arguments mcmc : clear implicits.

(** ---------------------------------------------------------------- RFModel *)
Section Forest.
Local Open Scope R_scope.
(** A regression tree of scikit-learn: its prediction at a location. *)
Definition tree : Type := pt -> R.
Definition rsum_list (l : list R) : R := fold_right Rplus 0 l.
(** np.array(preds).mean(), np.array(preds).std() *)
Definition np_mean (l : list R) : R := rsum_list l / INR (List.length l).
Definition np_std (l : list R) : R := sqrt (np_mean (map (fun p => (p - np_mean l) * (p - np_mean l)) l)).
Variable fit : list pt -> list R -> list tree.                             (* RandomForestRegressor.fit on a new forest, or without warm_start *)
Variable refit : list tree -> list pt -> list R -> list tree.              (* fit on a fitted forest with warm_start *)
(** rfmodel.py:19-40 __init__: of the settings of the forest only warm_start matters here; X, Y are set by updates *)
Record rfmodel := mk_rf { rf_warm : bool; rf_X : list pt; rf_Y : list R; rf_forest : option (list tree) }.
Definition new_rf (warm : bool) : rfmodel := mk_rf warm [] [] None.
(** rfmodel.py:42-65 _create_model; 68-77 updateModel *)
Definition rf_update (g : rfmodel) (d : list pt * list R) : rfmodel :=
  let (X, Y) := d in
  mk_rf (rf_warm g) X Y (Some (match rf_forest g with
                               | None => fit X Y
                               | Some f => if rf_warm g then refit f X Y else fit X Y
                               end)).
(** rfmodel.py:79-93 predict at one location: mean and standard deviation over the trees (modelled for the versions of
    scikit-learn whose trees accept a one-dimensional array, as the code passes) *)
Definition rf_predict (g : rfmodel) (x : pt) : option (R * R) :=
  match rf_forest g with None => None | Some f => let preds := map (fun t => t x) f in Some (np_mean preds, np_std preds) end.
(** rfmodel.py:95-96 get_fmin; RandomForestRegressor.predict is the mean over the trees *)
Definition rf_get_fmin (g : rfmodel) : option R :=
  match rf_forest g with None => None | Some f => Some (minimum (map (fun x => np_mean (map (fun t => t x) f)) (rf_X g))) end.
End Forest.
