(** The acquisition under constraints on rows of doubles: GPyOpt/acquisitions/base.py:33-40 with GPyOpt/core/task/space.py:296-311.  Spaces without bandit
    variables, as in FloatPipe.v; [raw] and [cost] are what _compute_acq and cost_withGradients return.  Definitions only. *)
From Coq Require Import List ZArith Bool.
From Flocq Require Import IEEE754.BinarySingleNaN.
From Verif.Model Require Import Py Float FloatRow FloatCons FloatAcq FloatPipe.
Import ListNotations.

(** base.py:39 x_z: the row is converted when the numbers of model and objective columns differ *)
Definition x_z (ks : list fkind) (x : list float) : res (list float) := if Nat.eqb (list_sum (map fwidth ks)) (length ks) then Ok x else zip_f ks x.
(** base.py:33-40 -(f_acqu*indicator)/cost_x.  A constraint that raises is written NaN here; with the columns it mentions present it does not raise. *)
Definition masked_f (ks : list fkind) (es : list fexpr) (raw cost : list float -> float) (x : list float) : float :=
  match (z <- x_z ks x ;; satisfies es z) with Ok b => weighted_f (raw x) (indicator_of b) (cost x) | Raise _ => B754_nan end.
(** optimizer.py:160-163: the local optimizer and the rounding that follows it *)
Definition rounded_local (ks : list fkind) (local : nat -> list float -> res (list float)) (k : nat) (x0 : list float) : res (list float) :=
  x <- local k x0 ;; round_optimum_f ks x.
