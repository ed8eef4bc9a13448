(** Acquisition functions, over the reals: GPyOpt/acquisitions/*.py, GPyOpt/util/general.py:113-128,
    GPyOpt/core/task/cost.py and the prediction methods of GPyOpt/models/gpmodel.py.  Definitions only.

    The code works on arrays with one row per location; a definition here gives the result for one row.  Model/Arrays.v has the
    operations on whole arrays; Props/PArrays.v proves when they act row by row.  Real numbers instead of floating point; no NaN.  Where numpy would produce NaN or -inf (logarithm
    of a number that is not positive, division by zero) the theorems exclude the argument. *)
From Coq Require Import Reals List Bool.
From Coquelicot Require Import Coquelicot.
Import ListNotations.
Local Open Scope R_scope.

Definition pt := list R.
Definition vscale (c : R) (v : pt) : pt := map (fun a => c * a) v.
Fixpoint vzip (f : R -> R -> R) (v w : pt) : pt :=
  match v, w with a :: v', b :: w' => f a b :: vzip f v' w' | _, _ => [] end.
Definition vadd := vzip Rplus.
Definition vsub := vzip Rminus.
Definition e10 : R := / 10 ^ 10.

(** np.clip(v, 1e-10, np.inf) *)
Definition clip (v : R) : R := if Rlt_dec v e10 then e10 else v.

(** scipy.special.erfc (external, by its definition). *)
Definition erfc (x : R) : R := 1 - 2 / sqrt PI * RInt (fun t => exp (- (t * t))) 0 x.
(** scipy.stats.norm.cdf (external, by its definition). *)
Definition cdf (x : R) : R := / 2 * erfc (- x / sqrt 2).

(** ---- GPyOpt/util/general.py:113-128 get_quantiles.  The array [s] is changed in place ([s[s<1e-10] = 1e-10]), so the caller
    goes on with the clipped value: the fourth component. *)
Definition get_quantiles (par fmin m s : R) : R * R * R * R :=
  let s := clip s in
  let u := (fmin - m - par) / s in
  let phi := exp (- / 2 * (u * u)) / sqrt (2 * PI) in
  let Phi := / 2 * erfc (- u / sqrt 2) in
  (phi, Phi, u, s).

(** ---- Surrogates: what an acquisition uses of a model (GPyOpt/models/base.py:8-32). *)
Record model := mk_model {
  predict : pt -> R * R;
  predict_withGradients : pt -> R * R * pt * pt;
  get_fmin : R
}.

(** A GPy regression model: posterior mean and variance, their gradients (external), and the training inputs. *)
Record gpy := mk_gpy { g_mean : pt -> R; g_var : pt -> R; g_dmean : pt -> pt; g_dvar : pt -> pt; g_X : list pt }.
(** ndarray.min() of a non-empty array *)
Definition minimum (l : list R) : R := match l with [] => 0 | a :: l' => fold_left Rmin l' a end.
(** ---- GPyOpt/models/gpmodel.py:95-112 GPModel._predict, predict; 125-129 get_fmin; 131-142 predict_withGradients. *)
Definition gp_predict (g : gpy) (x : pt) : R * R := (g_mean g x, sqrt (clip (g_var g x))).
Definition gp_predict_withGradients (g : gpy) (x : pt) : R * R * pt * pt :=
  let v := clip (g_var g x) in
  (g_mean g x, sqrt v, g_dmean g x, map (fun d => d / (2 * sqrt v)) (g_dvar g x)).
Definition gp_fmin (g : gpy) : R := minimum (map (g_mean g) (g_X g)).
(** gpmodel.py:114-123 GPModel.predict_covariance (through _predict, 95-100): [C] is the covariance matrix GPy returns *)
Definition gp_predict_covariance (C : nat -> nat -> R) (i j : nat) : R := clip (C i j).
Definition GPModel (g : gpy) : model := mk_model (gp_predict g) (gp_predict_withGradients g) (gp_fmin g).

(** ---- An acquisition: _compute_acq and _compute_acq_withGradients. *)
Record acq := mk_acq { compute_acq : pt -> R; compute_acq_withGradients : pt -> R * pt }.

(** GPyOpt/acquisitions/EI.py:33-52 *)
Definition EI (jitter : R) (M : model) : acq := mk_acq
  (fun x => let '(m, s) := predict M x in
            let '(phi, Phi, u, s) := get_quantiles jitter (get_fmin M) m s in
            s * (u * Phi + phi))
  (fun x => let '(m, s, dmdx, dsdx) := predict_withGradients M x in
            let '(phi, Phi, u, s) := get_quantiles jitter (get_fmin M) m s in
            (s * (u * Phi + phi), vsub (vscale phi dsdx) (vscale Phi dmdx))).

(** GPyOpt/acquisitions/MPI.py:33-52 *)
Definition MPI (jitter : R) (M : model) : acq := mk_acq
  (fun x => let '(m, s) := predict M x in
            let '(_, Phi, _, _) := get_quantiles jitter (get_fmin M) m s in Phi)
  (fun x => let '(m, s, dmdx, dsdx) := predict_withGradients M x in
            let '(phi, Phi, u, s) := get_quantiles jitter (get_fmin M) m s in
            (Phi, vscale (- (phi / s)) (vadd dmdx (vscale u dsdx)))).

(** GPyOpt/acquisitions/LCB.py:34-50 *)
Definition LCB (weight : R) (M : model) : acq := mk_acq
  (fun x => let '(m, s) := predict M x in - m + weight * s)
  (fun x => let '(m, s, dmdx, dsdx) := predict_withGradients M x in
            (- m + weight * s, vadd (vscale (-1) dmdx) (vscale weight dsdx))).

(** ---- Integrated acquisitions: a model that returns one prediction per sample (gpmodel.py:257-324). *)
Record mcmc := mk_mcmc {
  predicts : pt -> list (R * R);
  predicts_withGradients : pt -> list (R * R * pt * pt);
  get_fmins : list R
}.
(** The accumulation loops: a running sum over zip(...), for the value started at 0... *)
Definition running (l : list R) : R := fold_left Rplus l 0.
(** ...and for the gradients started at the first element (None before it). *)
Definition running_vec (l : list pt) : option pt :=
  match l with [] => None | a :: l' => Some (fold_left vadd l' a) end.
Definition running_opt (l : list R) : option R := match l with [] => None | a :: l' => Some (fold_left Rplus l' a) end.
(** f_acqu/(len(means)), df_acqu/(len(means)); without samples Python raises TypeError (None / 0): here None. *)
Definition over_samples (n : nat) (fs : list R) (dfs : list pt) : option (R * pt) :=
  match running_opt fs, running_vec dfs with
  | Some f, Some df => Some (f / INR n, map (fun a => a / INR n) df)
  | _, _ => None
  end.

(** GPyOpt/acquisitions/EI_mcmc.py:32-63 *)
Definition ei_sample (jitter : R) (q : R * R * R) : R :=
  let '(m, s, fmin) := q in
  let '(phi, Phi, _, s) := get_quantiles jitter fmin m s in (fmin - m + jitter) * Phi + s * phi.
Definition ei_sample_d (jitter : R) (q : R * R * pt * pt * R) : pt :=
  let '(m, s, dmdx, dsdx, fmin) := q in
  let '(phi, Phi, _, _) := get_quantiles jitter fmin m s in vsub (vscale phi dsdx) (vscale Phi dmdx).
Definition EI_MCMC (jitter : R) (M : mcmc) (x : pt) : R :=
  running (map (ei_sample jitter) (combine (predicts M x) (get_fmins M))) / INR (length (predicts M x)).
Definition EI_MCMC_withGradients (jitter : R) (M : mcmc) (x : pt) : option (R * pt) :=
  let z := combine (predicts_withGradients M x) (get_fmins M) in
  over_samples (length (predicts_withGradients M x))
    (map (fun q => let '(m, s, _, _, fmin) := q in ei_sample jitter (m, s, fmin)) z) (map (ei_sample_d jitter) z).

(** GPyOpt/acquisitions/MPI_mcmc.py:33-64 *)
Definition mpi_sample (jitter : R) (q : R * R * R) : R :=
  let '(m, s, fmin) := q in let '(_, Phi, _, _) := get_quantiles jitter fmin m s in Phi.
Definition mpi_sample_d (jitter : R) (q : R * R * pt * pt * R) : pt :=
  let '(m, s, dmdx, dsdx, fmin) := q in
  let '(phi, _, u, s) := get_quantiles jitter fmin m s in vscale (- (phi / s)) (vadd dmdx (vscale u dsdx)).
Definition MPI_MCMC (jitter : R) (M : mcmc) (x : pt) : R :=
  running (map (mpi_sample jitter) (combine (predicts M x) (get_fmins M))) / INR (length (predicts M x)).
Definition MPI_MCMC_withGradients (jitter : R) (M : mcmc) (x : pt) : option (R * pt) :=
  let z := combine (predicts_withGradients M x) (get_fmins M) in
  over_samples (length (predicts_withGradients M x))
    (map (fun q => let '(m, s, _, _, fmin) := q in mpi_sample jitter (m, s, fmin)) z) (map (mpi_sample_d jitter) z).

(** GPyOpt/acquisitions/LCB_mcmc.py:29-56 *)
Definition lcb_sample (weight : R) (q : R * R) : R := let '(m, s) := q in - m + weight * s.
Definition lcb_sample_d (weight : R) (q : R * R * pt * pt) : pt :=
  let '(_, _, dmdx, dsdx) := q in vadd (vscale (-1) dmdx) (vscale weight dsdx).
Definition LCB_MCMC (weight : R) (M : mcmc) (x : pt) : R :=
  running (map (lcb_sample weight) (predicts M x)) / INR (length (predicts M x)).
Definition LCB_MCMC_withGradients (weight : R) (M : mcmc) (x : pt) : option (R * pt) :=
  let z := predicts_withGradients M x in
  over_samples (length z) (map (fun q => let '(m, s, _, _) := q in lcb_sample weight (m, s)) z) (map (lcb_sample_d weight) z).

(** ---- Cost: GPyOpt/core/task/cost.py:41-53 (surrogate of the log cost) and 76-80 (constant cost). *)
Definition cost := pt -> R * pt.
Definition cost_gp (M : model) (x : pt) : R := let '(m, _, _, _) := predict_withGradients M x in exp m.
Definition cost_gp_withGradients (M : model) : cost :=
  fun x => let '(m, _, dmdx, _) := predict_withGradients M x in (exp m, vscale (exp m) dmdx).
Definition constant_cost : cost := fun x => (1, map (fun _ => 0) x).

(** ---- GPyOpt/acquisitions/base.py:33-52.  [ok] is space.indicator_constraints on the decoded location, 1 or 0. *)
Definition b2r (b : bool) : R := if b then 1 else 0.
Definition acquisition_function (A : acq) (c : cost) (ok : pt -> bool) (x : pt) : R :=
  - (compute_acq A x * b2r (ok x)) / fst (c x).
Definition acquisition_function_withGradients (A : acq) (c : cost) (ok : pt -> bool) (x : pt) : R * pt :=
  let '(f_acqu, df_acqu) := compute_acq_withGradients A x in
  let '(cost_x, cost_grad_x) := c x in
  let f_acq_cost := f_acqu / cost_x in
  let df_acq_cost := map (fun a => a / (cost_x * cost_x)) (vsub (vscale cost_x df_acqu) (vscale f_acqu cost_grad_x)) in
  (- f_acq_cost * b2r (ok x), map (fun a => - a * b2r (ok x)) df_acq_cost).

(** ---- Local penalization: GPyOpt/acquisitions/LP.py.  [under] is the wrapped acquisition: acquisition_function and its
    gradient (both already weighted and negated). *)
Record under := mk_under { u_value : pt -> R; u_grad : pt -> pt }.
Inductive transform := TNone | TSoftplus | TOther.
(** LP.py:24-31: LCB is never used with the logarithm of its raw value. *)
Definition lp_transform (is_lcb : bool) (t : transform) : transform :=
  match t with TNone => if is_lcb then TSoftplus else TNone | _ => t end.
Definition e16 : R := / 10 ^ 16.
Definition e50 : R := / 10 ^ 50.
(** One penaliser: centre, radius, width. *)
Definition hammer_par := (pt * R * R)%type.
(** LP.py:48-62 _hammer_function_precompute (the second component of predict is used as a variance). *)
Definition hammer_precompute (M : model) (L Min : R) (x0 : pt) : hammer_par :=
  let '(m, pred) := predict M x0 in
  let pred := if Rlt_dec pred e16 then e16 else pred in
  (x0, (m - Min) / L, sqrt pred / L).
(** LP.py:40-46 update_batches: None removes the penalisers. *)
Definition update_batches (M : model) (X_batch : option (list pt)) (L Min : R) : list hammer_par :=
  match X_batch with None => [] | Some xs => map (hammer_precompute M L Min) xs end.
Definition dist (x y : pt) : R := sqrt (fold_right Rplus 0 (map (fun d => d * d) (vsub x y))).
(** LP.py:64-68 _hammer_function: norm.logcdf *)
Definition hammer (x : pt) (h : hammer_par) : R := let '(x0, r, s) := h in ln (cdf ((dist x x0 - r) / s)).
(** LP.py:76-83 *)
Definition lp_map (t : transform) (fval : R) : R :=
  match t with
  | TSoftplus => if Rlt_dec fval 40 then ln (ln (1 + exp fval)) else ln fval
  | TNone => ln (fval + e50)
  | TOther => fval
  end.
(** LP.py:70-89 _penalized_acquisition and 105-110 acquisition_function *)
Definition penalized (t : transform) (U : under) (hs : list hammer_par) (x : pt) : R :=
  - lp_map t (- u_value U x) + - fold_right Rplus 0 (map (hammer x) hs).
(** LP.py:91-103 _d_hammer_function, for one location and one batch point *)
Definition d_hammer (x : pt) (h : hammer_par) : R :=
  let '(x0, r, s) := h in
  let nm := dist x x0 in
  let z := (nm - r) / s in
  let h_func := cdf z in
  if Rlt_dec h_func e50 then 0 else 1 / (s * sqrt (2 * PI) * h_func) * exp (- (z * z) / 2) / nm.
(** LP.py:112-132 d_acquisition_function (134-140 withGradients returns it with acquisition_function): the sum over the batch is one number, subtracted from every coordinate. *)
Definition lp_scale (t : transform) (fval : R) : R :=
  match t with TSoftplus => 1 / (ln (1 + exp fval) * (1 + exp (- fval))) | TNone => 1 / fval | TOther => 1 end.
Definition d_penalized (t : transform) (U : under) (hs : list hammer_par) (x : pt) : pt :=
  let scale := lp_scale t (- u_value U x) in
  map (fun g => scale * g - fold_right Rplus 0 (map (d_hammer x) hs)) (u_grad U x).

(** GPyOpt/core/evaluators/batch_local_penalization.py:52-72 estimate_L: [fun_] is res.fun of the local optimizer, which
    minimises minus the norm of the gradient of the posterior mean. *)
Definition estimate_L (fun_ : R) : R := let L := - fun_ in if Rlt_dec L (/ 10 ^ 7) then 10 else L.

(** ---- GPyOpt/models/gpmodel.py:257-277, 279-295, 297-324 GPModel_MCMC.predict, get_fmin, predict_withGradients: one GPy model per
    hyper-parameter sample. *)
Definition GPModel_MCMC (gs : list gpy) : mcmc := mk_mcmc
  (fun x => map (fun g => (g_mean g x, sqrt (clip (g_var g x)))) gs)
  (fun x => map (fun g => let std := sqrt (clip (g_var g x)) in
                          (g_mean g x, std, g_dmean g x, map (fun d => d / (2 * std)) (g_dvar g x))) gs)
  (map (fun g => minimum (map (g_mean g) (g_X g))) gs).
