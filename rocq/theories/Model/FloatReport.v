(** The report on doubles: GPyOpt/util/general.py:131-142 best_value (sign = 1) and GPyOpt/core/bo.py:206-212 _compute_results, and the negation of
    GPyOpt/methods/bayesian_optimization.py:200-204 _sign.  Definitions only.
    Simplification: of two equal values ndarray.min keeps the first here; numpy may keep the other, which differs at most in the sign of a zero. *)
From Coq Require Import List.
From Flocq Require Import IEEE754.BinarySingleNaN.
From Verif.Model Require Import Py Float.
Import ListNotations.

(** np.minimum: NaN wins *)
Definition minimum_f (x y : float) : float := if nan_p x then x else if nan_p y then y else if flt y x then y else x.
(** ndarray.min: ValueError for an empty array *)
Definition amin_f (l : list float) : res float := match l with [] => Raise ValueError | x :: t => Ok (fold_left minimum_f t x) end.
(** np.argmin: the first NaN, otherwise the first of the smallest.  [i] the position of the head of the list, [j], [m] the best so far *)
Fixpoint argmin_nan_from (l : list float) (i j : nat) (m : float) : nat :=
  match l with
  | [] => j
  | x :: t => if nan_p m then j else if nan_p x then i else if flt x m then argmin_nan_from t (S i) i x else argmin_nan_from t (S i) j m
  end.
Definition argmin_nan_f (l : list float) : res nat := match l with [] => Raise ValueError | x :: t => Ok (argmin_nan_from t 1 0 x) end.
(** general.py:131-142 best_value with sign = 1 *)
Definition best_value_f (Y : list float) : res (list float) := mapM (fun i => amin_f (firstn (i + 1) Y)) (seq 0 (length Y)).
(** bo.py:206-212 _compute_results: Y_best, x_opt, fx_opt *)
Definition compute_results_f {A} (X : list A) (Y : list float) : res (list float * A * float) :=
  yb <- best_value_f Y ;;
  i <- argmin_nan_f Y ;;
  x <- get X i ;;
  m <- amin_f Y ;;
  Ok (yb, x, m).
(** bayesian_optimization.py:200-204 _sign: the objective negated *)
Definition sign_f {A} (f : A -> res float) : A -> res float := fun x => y <- f x ;; Ok (Bopp y).
