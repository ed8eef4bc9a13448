(** The helpers of GPyOpt/util/general.py that the library exports and does not use itself.  Real arithmetic.  Definitions only. *)
From Coq Require Import List ZArith Reals.
From Verif.Model Require Import Py Util.
Import ListNotations.
Local Open Scope R_scope.

(** np.argmin on a vector: the first position of the smallest entry, ValueError on nothing *)
Fixpoint argmin_from (i best : nat) (low : R) (l : list R) : nat :=
  match l with [] => best | a :: t => if Rlt_dec a low then argmin_from (S i) i a t else argmin_from (S i) best low t end.
Definition argmin (l : list R) : res nat := match l with [] => Raise ValueError | a :: t => Ok (argmin_from 1 0 a t) end.
(** general.py:49-60 best_guess.  Simplification: f returns a vector (a column gives the same numbers). *)
Definition best_guess {P} (f : list P -> res (list R)) (X : list P) : res (list R) :=
  mapM (fun i => ff <- f (firstn (S i) X) ;; j <- argmin ff ;; Ok (nth j ff 0)) (seq 0 (length X)).
(** general.py:131-142 best_value, for any sign *)
Definition best_value (sign : Z) (Y : list R) : list R :=
  map (fun i => if Z.eqb sign 1 then lmin (firstn (S i) Y) else lmax (firstn (S i) Y)) (seq 0 (length Y)).

(** Arrays with no, one and two axes. *)
Inductive arr := A0 (a : R) | A1 (l : list R) | A2 (m : list (list R)).
Definition entries (x : arr) : list R := match x with A0 a => [a] | A1 l => l | A2 m => concat m end.
(** general.py:76-84 reshape *)
Definition reshape (x : arr) (input_dim : nat) : arr := if Nat.eqb (length (entries x)) input_dim then A2 [entries x] else x.
(** general.py:86-96 get_moments.  [predict] is the prediction of a GPy model: means and variances. *)
Definition get_moments {P} (predict : P -> list R * list R) (data x : P) : res (list R * list R * R) :=
  fmin <- match fst (predict data) with [] => Raise ValueError | l => Ok (lmin l) end ;;
  let (m, v) := predict x in Ok (m, map (fun v => sqrt (Rmax v 0)) v, fmin).
(** general.py:98-110 get_d_moments at one point with predicted variance [v] whose gradient is [dvdx].  None: not a finite number (a
    division by zero, or the root of a negative number). *)
Definition get_dsdx (v : R) (dvdx : list R) : list (option R) := map (fun g => if Rlt_dec 0 v then Some (g / (2 * sqrt v)) else None) dvdx.
(** general.py:154-165 evaluate_function.  [f] returns the entries of its result, a number being one entry; numpy assigns one entry to all
    columns.  [clock k] is the k-th reading of time.time(). *)
Definition fill (dim : nat) (y : list R) : res (list R) :=
  match y with [a] => Ok (repeat a dim) | _ => if Nat.eqb (length y) dim then Ok y else Raise ValueError end.
Fixpoint evaluate_rows (f : list R -> res (list R)) (dim : nat) (clock : nat -> R) (k : nat) (X : list (list R)) : res (list (list R) * list R) :=
  match X with
  | [] => Ok ([], [])
  | x :: X => y <- f x ;; row <- fill dim y ;; r <- evaluate_rows f dim clock (k + 2) X ;; Ok (row :: fst r, (clock (k + 1)%nat - clock k) :: snd r)
  end.
Definition evaluate_function (f : list R -> res (list R)) (clock : nat -> R) (dim : nat) (X : list (list R)) := evaluate_rows f dim clock 0 X.

(** general.py:9-24 compute_integrated_acquisition and 26-46 the version with gradients, which differ in what the acquisition returns (one
    number, or the number followed by the gradient) and are added entry by entry.  [num]: the attribute num_hmc_samples of the model, None
    when it has none.  [kern]: the parameters of the kernel; assigning a vector of another length raises ValueError, a vector of length one
    is assigned to all.  The first result is the kernel afterwards. *)
Definition assign (kern sample : list R) : res (list R) :=
  match sample with
  | [a] => Ok (repeat a (length kern))
  | _ => if Nat.eqb (length sample) (length kern) then Ok sample else Raise ValueError
  end.
Definition add (a b : list R) : list R := map (fun p => fst p + snd p) (combine a b).
Fixpoint integrate (acq : list R -> res (list R)) (hmc : list (list R)) (todo i : nat) (sum : option (list R)) (kern : list R) : list R * res (option (list R)) :=
  match todo with
  | O => (kern, Ok sum)
  | S todo =>
      match nth_error hmc i with
      | None => (kern, Raise IndexError)
      | Some s =>
          match assign kern s with
          | Raise e => (kern, Raise e)
          | Ok kern =>
              match acq kern with
              | Raise e => (kern, Raise e)
              | Ok y => integrate acq hmc todo (S i) (Some (match sum with None => y | Some t => add t y end)) kern
              end
          end
      end
  end.
Definition integrated (acq : list R -> res (list R)) (num : option nat) (hmc : list (list R)) (kern : list R) : list R * res (list R) :=
  match num with
  | None => (kern, Raise AttributeError)
  | Some n =>
      match integrate acq hmc n 0 None kern with
      | (kern, Raise e) => (kern, Raise e)
      | (kern, Ok None) => (kern, Raise ZeroDivisionError)
      | (kern, Ok (Some t)) => (kern, Ok (map (fun a => a / INR n) t))
      end
  end.
