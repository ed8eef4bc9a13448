(** A whole run on doubles: GPyOpt/core/bo.py:110-167, with the sequential evaluator, on spaces without bandit variables, context and constraints; the
    stages are those of Model/FloatPipe.v (suggestion), Model/FloatStop.v (tests of the loop) and Model/FloatReport.v (report).  Definitions only.
    Simplifications: the objective answers by its argument, one row at a time; costs are left out; the evaluated rows are not written to by anyone. *)
From Coq Require Import List ZArith Bool.
From Flocq Require Import IEEE754.BinarySingleNaN.
From Verif.Model Require Import Py Float FloatRow FloatPipe FloatStop FloatReport.
Import ListNotations.

(** What a run depends on: the variables, de_duplication, maximize, f, the surrogate and the acquisition fitted to the data (None: LinAlgError), np.sum,
    the clock at the start and at the end of each pass. *)
Record fenv := mk_fenv {
  v_kinds : list fkind; v_dedup : bool; v_maximize : bool; v_f : list float -> res float;
  v_fit : list (list float) -> list float -> option acquiring; v_total : list float -> float; v_zero : float; v_clock : Z -> float }.
(** bayesian_optimization.py:104-106 *)
Definition v_objective (E : fenv) : list float -> res float := if v_maximize E then sign_f (v_f E) else v_f E.
(** bo.py:112-123 the limits; None: not given *)
Definition limits_f (max_iter max_time : option float) : float * float :=
  match max_iter, max_time with
  | None, None => (of_Z 0, B754_infinity false)
  | None, Some t => (B754_infinity false, t)
  | Some n, None => (n, B754_infinity false)
  | Some n, Some t => (n, t)
  end.
(** bo.py:139-164 the loop, [num] acquisitions made; None: [fuel] passes were not enough *)
Fixpoint loop_f (fuel : nat) (E : fenv) (max_iter max_time eps : float) (num : Z) (cum : float) (X : list (list float)) (Y : list float)
  : option (res (list (list float) * list float)) :=
  match fuel with
  | O => None
  | S fuel' =>
      if enters max_time cum then
        match v_fit E X Y with
        | None => Some (Ok (X, Y))
        | Some a =>
            if leaves (v_total E) max_iter eps num X then Some (Ok (X, Y))
            else match suggest_f (v_kinds E) (if v_dedup E then Some X else None) (a_score a) (a_argsort a) (a_local a) (a_design a) with
                 | Raise e => Some (Raise e)
                 | Ok x =>
                     match v_objective E x with
                     | Raise e => Some (Raise e)
                     | Ok y => loop_f fuel' E max_iter max_time eps (num + 1) (cum_time (v_clock E num) (v_zero E)) (X ++ [x]) (Y ++ [y])
                     end
                 end
        end
      else Some (Ok (X, Y))
  end.
(** bo.py:110-167: X, Y and the report.  [Y]: None when nothing was evaluated yet (lines 126-129) *)
Definition run_f (fuel : nat) (E : fenv) (max_iter max_time : option float) (eps : float) (X : list (list float)) (Y : option (list float))
  : option (res (list (list float) * list float * (list float * list float * float))) :=
  match match Y with Some Y => Ok Y | None => mapM (v_objective E) X end with
  | Raise e => Some (Raise e)
  | Ok Y =>
      match loop_f fuel E (fst (limits_f max_iter max_time)) (snd (limits_f max_iter max_time)) eps 0 f0 X Y with
      | None => None
      | Some (Raise e) => Some (Raise e)
      | Some (Ok p) => Some (r <- compute_results_f (fst p) (snd p) ;; Ok (fst p, snd p, r))
      end
  end.
