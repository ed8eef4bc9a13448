(** BanditVariable.round in double precision: GPyOpt/core/task/variables.py:151-159.  Definitions only. *)
From Coq Require Import List.
From Verif.Model Require Import Py Float FloatStop.
Import ListNotations.

(** variables.py:151-159.  np.linalg.norm(np.array(self.domain) - value_array, axis=1) is the square root of the sum of the squared
    differences, row by row; [total] is the sum, in whatever order numpy adds.  A row of another length than the arms does not broadcast
    in numpy; it is not modelled. *)
Definition round_bandit (total : list float -> float) (arms : list (list float)) (x : list float) : res (list float) :=
  i <- argmin_f (map (fun arm => distance total arm x) arms) ;;
  match nth_error arms i with Some arm => Ok arm | None => Raise IndexError end.
