(** The Lipschitz constant of local penalization (GPyOpt/core/evaluators/batch_local_penalization.py:50-72), random points of
    a box (GPyOpt/util/general.py:66-77) and the predictions of the random forest (GPyOpt/models/rfmodel.py:76-96).
    Definitions only, over the real numbers. *)
From Coq Require Import Reals List.
From Verif.Model Require Import Py AcqR Util.
Import ListNotations.
Local Open Scope R_scope.

(** general.py:66-77 samples_multidimensional_uniform.  np.random.uniform(low, high) is low + (high - low) * u with u in
    [0, 1); [u i k] is the draw for row i and column k (the code draws column by column; the draws are arbitrary). *)
Definition samples_multidimensional_uniform (u : nat -> nat -> R) (bounds : list (R * R)) (num_data : nat) : list pt :=
  map (fun i => map (fun kb => fst (snd kb) + (snd (snd kb) - fst (snd kb)) * u i (fst kb)) (combine (seq 0 (length bounds)) bounds)) (seq 0 num_data).

(** np.argmin: the first smallest entry; ValueError on an empty array *)
Fixpoint argmin_from (best : nat) (v : R) (i : nat) (l : list R) : nat :=
  match l with
  | [] => best
  | a :: l' => if Rlt_dec a v then argmin_from i a (S i) l' else argmin_from best v (S i) l'
  end.
Definition argminR (l : list R) : res nat := match l with [] => Raise ValueError | a :: l' => Ok (argmin_from 0 a 1 l') end.

(** batch_local_penalization.py:54-60 df, minus the norm of the gradient of the predictive mean.  [grad x] is
    dmdx at x (predictive_gradients, one output). *)
Definition df (grad : pt -> pt) (x : pt) : R := - sqrt (fold_right Rplus 0 (map (fun d => d * d) (grad x))).

(** batch_local_penalization.py:50-72 estimate_L.  [solve f x0 bounds] is res.fun of scipy.optimize.minimize(f, x0,
    method='L-BFGS-B', bounds=bounds); X is model.X.  The last two lines are [AcqR.estimate_L]. *)
Definition lipschitz (grad : pt -> pt) (solve : (pt -> R) -> pt -> list (R * R) -> R) (u : nat -> nat -> R) (bounds : list (R * R)) (X : list pt) : res R :=
  let samples := samples_multidimensional_uniform u bounds 500 ++ X in
  i <- argminR (map (df grad) samples) ;;
  match nth_error samples i with
  | None => Raise IndexError
  | Some x0 => Ok (estimate_L (solve (df grad) x0 bounds))
  end.

(** rfmodel.py:76-91 RFModel.predict: mean and standard deviation over the trees, row by row.  A tree is a function of the
    row; sklearn's refusal of one-dimensional rows in later versions is not modelled. *)
Definition rf_predict (trees : list (pt -> R)) (X : list pt) : list R * list R :=
  (map (fun x => mean (map (fun t => t x) trees)) X, map (fun x => std (map (fun t => t x) trees)) X).
(** rfmodel.py:93-94 get_fmin: the forest predicts the mean of its trees; ndarray.min raises on an empty array *)
Definition rf_get_fmin (trees : list (pt -> R)) (X : list pt) : res R :=
  match X with [] => Raise ValueError | _ => Ok (Util.lmin (map (fun x => mean (map (fun t => t x) trees)) X)) end.
