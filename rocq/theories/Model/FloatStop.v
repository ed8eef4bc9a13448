(** The tests of the loop of run_optimization in double precision: GPyOpt/core/bo.py:139-164 and 214-221.  Definitions
    only.  The rest of the loop is in Model/BO.v, where the same tests are made on exact numbers. *)
From Coq Require Import List ZArith Bool Permutation SpecFloat.
From Flocq Require Import Core IEEE754.BinarySingleNaN.
From Verif.Model Require Import Py Float.
Import ListNotations.
Local Open Scope nat_scope.

(** a <= b of two doubles: False when one of them is NaN *)
Definition fle : float -> float -> bool := Bleb.

(** The numbers np.sum may return for the entries of a vector.  numpy adds in blocks and with several accumulators that
    depend on the length and on the machine, so no order is fixed here: any way of adding two numbers at a time until one is
    left.  The sum of an empty vector is 0. *)
Inductive added : list float -> float -> Prop :=
  | added_none : added [] f0
  | added_one : forall x, added [x] x
  | added_two : forall l r x y, l <> [] -> r <> [] -> added l x -> added r y -> added (l ++ r) (fadd x y)
  | added_order : forall l r x, Permutation l r -> added l x -> added r x.

(** bo.py:221  np.sqrt(np.sum((self.X[-1, :] - self.X[-2, :]) ** 2)); the square of an array of doubles is the product of
    each entry with itself; [total] is np.sum *)
Definition squares (a b : list float) : list float := map (fun p => let d := fsub (fst p) (snd p) in fmul d d) (combine a b).
Definition distance (total : list float -> float) (a b : list float) : float := fsqrt (total (squares a b)).
(** bo.py:214-221 _distance_last_evaluations: np.inf with less than two rows; [rev X] starts with X[-1] and X[-2] *)
Definition distance_last_evaluations (total : list float -> float) (X : list (list float)) : float :=
  match rev X with a :: b :: _ => distance total a b | _ => B754_infinity false end.

(** bo.py:139  while (self.max_time > self.cum_time) *)
Definition enters (max_time cum_time : float) : bool := flt cum_time max_time.
(** bo.py:159  self.cum_time = time.time() - self.time_zero; two readings of the clock *)
Definition cum_time (now zero : float) : float := fsub now zero.
(** bo.py:146-147  the test at which the loop is left.  num_acquisitions is a Python integer, compared as a double (exact up
    to 2^53) *)
Definition leaves (total : list float -> float) (max_iter eps : float) (num_acquisitions : Z) (X : list (list float)) : bool :=
  fle max_iter (of_Z num_acquisitions) || (Nat.ltb 1 (length X) && fle (distance_last_evaluations total X) eps).

(** bo.py:139-160 the passes of the loop, without what happens between the tests: [steps] holds, for each pass, the rows it
    appends to X and the reading of the clock at its end.  The answer is the number of passes made and the final X; None
    when [steps] is exhausted. *)
Fixpoint passes (total : list float -> float) (max_iter max_time eps zero : float) (num : Z) (cum : float) (X : list (list float))
  (steps : list (list (list float) * float)) : option (Z * list (list float)) :=
  if enters max_time cum then
    if leaves total max_iter eps num X then Some (num, X)
    else match steps with
         | [] => None
         | (rows, now) :: rest => passes total max_iter max_time eps zero (num + 1) (cum_time now zero) (X ++ rows) rest
         end
  else Some (num, X).
