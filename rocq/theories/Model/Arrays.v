(** The acquisitions on the arrays they are called with: GPyOpt/acquisitions/*.py, GPyOpt/util/general.py:113-128 and
    GPyOpt/core/task/cost.py with numpy's broadcasting, for any number of locations at once.  Model/AcqR.v has the same formulas for
    one location.  Definitions only.  Real numbers instead of floating point, as in Model/AcqR.v. *)
From Coq Require Import Reals List Bool Arith.
From Verif.Model Require Import Py Constraints AcqR.
Import ListNotations.
Local Open Scope R_scope.

(** A number, an array of shape (n,), an array of shape (n, w). *)
Inductive nd := Sc (v : R) | V1 (l : list R) | M2 (w : nat) (m : list (list R)).
Definition ndim (a : nd) : nat := match a with Sc _ => 0%nat | V1 _ => 1%nat | M2 _ _ => 2%nat end.
Definition as_matrix (a : nd) : nat * list (list R) := match a with Sc v => (1%nat, [[v]]) | V1 l => (length l, [l]) | M2 w m => (w, m) end.
(** An operation on two arrays: numpy broadcasting ([pairs], [common] of Model/Constraints.v) *)
Definition bin (g : R -> R -> R) (a b : nd) : res nd :=
  let '(wa, ma) := as_matrix a in
  let '(wb, mb) := as_matrix b in
  w <- common wa wb ;;
  rows <- pairs ma mb ;;
  m <- mapM (fun r => ps <- pairs (fst r) (snd r) ;; Ok (map (fun p => g (fst p) (snd p)) ps)) rows ;;
  match Nat.max (ndim a) (ndim b), m with
  | 0%nat, [[v]] => Ok (Sc v)
  | 1%nat, [l] => Ok (V1 l)
  | 2%nat, _ => Ok (M2 w m)
  | _, _ => Raise OutOfModel
  end.
(** A function applied entry by entry *)
Definition un (g : R -> R) (a : nd) : nd := match a with Sc v => Sc (g v) | V1 l => V1 (map g l) | M2 w m => M2 w (map (map g) m) end.
(** ndarray.flatten() *)
Definition flatten (a : nd) : list R := match a with Sc v => [v] | V1 l => l | M2 _ m => concat m end.

(** ---- model.predict and model.predict_withGradients on a matrix of [n] locations (gpmodel.py:95-112, 131-142): n x 1 arrays of means
    and deviations, n x d arrays of gradients.  GPy predicts every row by itself. *)
Definition column (f : pt -> R) (X : list pt) : nd := M2 1 (map (fun x => [f x]) X).
Definition matrix (d : nat) (F : pt -> pt) (X : list pt) : nd := M2 d (map F X).
Definition mean_at (M : model) (x : pt) : R := fst (predict M x).
Definition std_at (M : model) (x : pt) : R := snd (predict M x).
Definition predict_arr (M : model) (X : list pt) : nd * nd := (column (mean_at M) X, column (std_at M) X).
Definition gmean (q : R * R * pt * pt) : R := fst (fst (fst q)).
Definition gstd (q : R * R * pt * pt) : R := snd (fst (fst q)).
Definition gdm (q : R * R * pt * pt) : pt := snd (fst q).
Definition gds (q : R * R * pt * pt) : pt := snd q.
Definition predict_arr_withGradients (M : model) (d : nat) (X : list pt) : nd * nd * nd * nd :=
  (column (fun x => gmean (predict_withGradients M x)) X, column (fun x => gstd (predict_withGradients M x)) X,
   matrix d (fun x => gdm (predict_withGradients M x)) X, matrix d (fun x => gds (predict_withGradients M x)) X).

(** ---- general.py:113-128 get_quantiles on arrays; the fourth component is the array [s], changed in place *)
Definition quantiles_arr (par fmin : R) (m s : nd) : res (nd * nd * nd * nd) :=
  let s := un clip s in
  t <- bin Rminus (Sc fmin) m ;; t <- bin Rminus t (Sc par) ;; u <- bin Rdiv t s ;;
  let phi := un (fun e => e / sqrt (2 * PI)) (un exp (un (Rmult (- / 2)) (un (fun v => v * v) u))) in
  let Phi := un (Rmult (/ 2)) (un erfc (un (fun v => - v / sqrt 2) u)) in
  Ok (phi, Phi, u, s).
(** EI.py:33-41 *)
Definition EI_arr (j : R) (M : model) (X : list pt) : res nd :=
  let '(m, s) := predict_arr M X in
  q <- quantiles_arr j (get_fmin M) m s ;;
  let '(phi, Phi, u, s) := q in
  a <- bin Rmult u Phi ;; a <- bin Rplus a phi ;; bin Rmult s a.
(** EI.py:43-52 *)
Definition EI_arr_withGradients (j : R) (M : model) (d : nat) (X : list pt) : res (nd * nd) :=
  let '(m, s, dmdx, dsdx) := predict_arr_withGradients M d X in
  q <- quantiles_arr j (get_fmin M) m s ;;
  let '(phi, Phi, u, s) := q in
  a <- bin Rmult u Phi ;; a <- bin Rplus a phi ;; f <- bin Rmult s a ;;
  a <- bin Rmult dsdx phi ;; b <- bin Rmult Phi dmdx ;; df <- bin Rminus a b ;;
  Ok (f, df).
(** MPI.py:32-40, 42-51 *)
Definition MPI_arr (j : R) (M : model) (X : list pt) : res nd :=
  let '(m, s) := predict_arr M X in q <- quantiles_arr j (get_fmin M) m s ;; let '(_, Phi, _, _) := q in Ok Phi.
Definition MPI_arr_withGradients (j : R) (M : model) (d : nat) (X : list pt) : res (nd * nd) :=
  let '(m, s, dmdx, dsdx) := predict_arr_withGradients M d X in
  q <- quantiles_arr j (get_fmin M) m s ;;
  let '(phi, Phi, u, s) := q in
  a <- bin Rdiv phi s ;; b <- bin Rmult dsdx u ;; b <- bin Rplus dmdx b ;; df <- bin Rmult (un Ropp a) b ;;
  Ok (Phi, df).
(** LCB.py:35-41, 43-50 *)
Definition LCB_arr (w : R) (M : model) (X : list pt) : res nd :=
  let '(m, s) := predict_arr M X in b <- bin Rmult (Sc w) s ;; bin Rplus (un Ropp m) b.
Definition LCB_arr_withGradients (w : R) (M : model) (d : nat) (X : list pt) : res (nd * nd) :=
  let '(m, s, dmdx, dsdx) := predict_arr_withGradients M d X in
  b <- bin Rmult (Sc w) s ;; f <- bin Rplus (un Ropp m) b ;;
  b <- bin Rmult (Sc w) dsdx ;; df <- bin Rplus (un Ropp dmdx) b ;;
  Ok (f, df).

(** ---- EI_mcmc.py:29-39, MPI_mcmc.py:29-39, LCB_mcmc.py:26-34: one pass per sample; the models [Ms] are those of the samples *)
Fixpoint accumulate (acc : nd) (fs : list (res nd)) : res nd :=
  match fs with [] => Ok acc | f :: r => v <- f ;; a <- bin Rplus acc v ;; accumulate a r end.
Definition ei_sample_arr (j : R) (M : model) (X : list pt) : res nd :=
  let '(m, s) := predict_arr M X in
  q <- quantiles_arr j (get_fmin M) m s ;;
  let '(phi, Phi, _, s) := q in
  a <- bin Rminus (Sc (get_fmin M)) m ;; a <- bin Rplus a (Sc j) ;; a <- bin Rmult a Phi ;; b <- bin Rmult s phi ;; bin Rplus a b.
Definition integrated (one : model -> list pt -> res nd) (Ms : list model) (X : list pt) : res nd :=
  t <- accumulate (Sc 0) (map (fun M => one M X) Ms) ;; bin Rdiv t (Sc (INR (length Ms))).

(** ---- The cost: a function that turns a matrix of locations into a pair of arrays.  cost.py:41-53 and 76-80. *)
Definition cost_arr := list pt -> nd * nd.
Definition constant_cost_arr (d : nat) : cost_arr := fun X => (M2 1 (map (fun _ => [1]) X), M2 d (map (fun _ => repeat 0 d) X)).
Definition cost_gp_arr (M : model) (d : nat) (X : list pt) : res (nd * nd) :=
  let '(m, _, dmdx, _) := predict_arr_withGradients M d X in
  g <- bin Rmult (un exp m) dmdx ;; Ok (un exp m, g).
(** space.py:296-312 indicator_constraints: an n x 1 array of ones and zeros *)
Definition indicator_arr (ok : pt -> bool) (X : list pt) : nd := M2 1 (map (fun x => [b2r (ok x)]) X).
(** base.py:33-40 acquisition_function *)
Definition weighted_arr (f : res nd) (c : cost_arr) (ok : pt -> bool) (X : list pt) : res nd :=
  f <- f ;; t <- bin Rmult f (indicator_arr ok X) ;; bin Rdiv (un Ropp t) (fst (c X)).
(** base.py:43-52 acquisition_function_withGradients *)
Definition weighted_arr_withGradients (f : res (nd * nd)) (c : cost_arr) (ok : pt -> bool) (X : list pt) : res (nd * nd) :=
  f <- f ;;
  let '(f_acqu, df_acqu) := f in
  let '(cost_x, cost_grad_x) := c X in
  f_acq_cost <- bin Rdiv f_acqu cost_x ;;
  a <- bin Rmult df_acqu cost_x ;; b <- bin Rmult f_acqu cost_grad_x ;; a <- bin Rminus a b ;;
  df_acq_cost <- bin Rdiv a (un (fun v => v * v) cost_x) ;;
  v <- bin Rmult (un Ropp f_acq_cost) (indicator_arr ok X) ;;
  g <- bin Rmult (un Ropp df_acq_cost) (indicator_arr ok X) ;;
  Ok (v, g).

(** ---- anchor_points_generator.py:99-104 the scores and 62-69 the anchor points: [argsort] is np.argsort *)
Definition scored_anchors (argsort : list R -> list nat) (X : list pt) (values : nd) (num_anchor : nat) : res (list pt) :=
  let scores := flatten values in
  mapM (get X) (firstn (Nat.min (length scores) num_anchor) (argsort scores)).

(** ---- LP.py.  [hs]: centres, radii and widths of the penalisers, as update_batches leaves them. *)
(** array[:,0] *)
Definition first_column (a : nd) : res (list R) := match a with M2 _ m => mapM (fun r => get r 0) m | _ => Raise IndexError end.
(** np.sqrt(np.square(x[:,None,:] - x0[None,:,:]).sum(-1)): an n x b array *)
Definition distances (X centres : list pt) : nd := M2 (length centres) (map (fun x => map (dist x) centres) X).
(** ndarray.sum(axis=-1) of an n x b array *)
Definition sum_last (a : nd) : res nd := match a with M2 _ m => Ok (V1 (map (fold_right Rplus 0) m)) | V1 l => Ok (Sc (fold_right Rplus 0 l)) | Sc _ => Raise OutOfModel end.
(** LP.py:64-68 _hammer_function *)
Definition hammer_arr (X : list pt) (hs : list hammer_par) : res nd :=
  t <- bin Rminus (distances X (map (fun h => fst (fst h)) hs)) (V1 (map (fun h => snd (fst h)) hs)) ;;
  z <- bin Rdiv t (V1 (map snd hs)) ;; Ok (un (fun v => ln (cdf v)) z).
(** LP.py:70-89 _penalized_acquisition; [U X] is acq.acquisition_function on the matrix; no penaliser: X_batch is None *)
Definition penalized_arr (t : transform) (U : list pt -> res nd) (hs : option (list hammer_par)) (X : list pt) : res nd :=
  u <- U X ;; f <- first_column u ;;
  let fval := un Ropp (un (lp_map t) (un Ropp (V1 f))) in
  match hs with
  | None => Ok fval
  | Some hs => h <- hammer_arr X hs ;; s <- sum_last h ;; bin Rplus fval (un Ropp s)
  end.
(** LP.py:91-103 _d_hammer_function: an n x 1 array *)
Definition d_hammer_arr (X : list pt) (hs : list hammer_par) : res nd :=
  let nm := distances X (map (fun h => fst (fst h)) hs) in
  t <- bin Rminus nm (V1 (map (fun h => snd (fst h)) hs)) ;;
  z <- bin Rdiv t (V1 (map snd hs)) ;;
  let h_func := un cdf z in
  a <- bin Rmult (un (fun s => s * sqrt (2 * PI)) (V1 (map snd hs))) h_func ;;
  a <- bin Rmult (un (fun v => 1 / v) a) (un exp (un (fun v => - (v * v) / 2) z)) ;;
  d <- bin Rdiv a nm ;;
  d <- bin (fun v h => if Rlt_dec h e50 then 0 else v) d h_func ;;
  match d with M2 _ m => Ok (M2 1 (map (fun r => [fold_right Rplus 0 r]) m)) | _ => Raise OutOfModel end.
(** LP.py:112-132 d_acquisition_function; [U X] is acq.acquisition_function, [dU X] the gradient of acquisition_function_withGradients.
    With the other transforms scale is the number 1. *)
Definition d_penalized_arr (t : transform) (U dU : list pt -> res nd) (hs : option (list hammer_par)) (X : list pt) : res nd :=
  scale <- match t with
           | TOther => Ok (Sc 1)
           | _ => u <- U X ;; f <- first_column u ;; Ok (un (lp_scale t) (un Ropp (V1 f)))
           end ;;
  g <- dU X ;; sg <- bin Rmult scale g ;;
  match hs with
  | None => Ok sg
  | Some hs => h <- d_hammer_arr X hs ;; bin Rminus sg h
  end.
