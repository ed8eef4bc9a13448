(** What variables and spaces list about themselves: GPyOpt/core/task/variables.py get_possible_values and GPyOpt/core/task/space.py
    get_continuous_space, get_discrete_space.  Definitions only. *)
From Coq Require Import List ZArith QArith Qcanon Bool.
From Verif.Model Require Import Py Space.
Import ListNotations.
Local Open Scope nat_scope.

(** np.eye(n) *)
Definition eye (n : nat) : mat := map (fun i => map (fun j => if Nat.eqb j i then q1 else q0) (seq 0 n)) (seq 0 n).
(** variables.py:97-98, 148-149, 169-170, 213-214 get_possible_values: one row per value.  The domain of a discrete variable is a tuple of numbers; here each
    is a row with one entry. *)
Definition get_possible_values (k : kind) : res mat :=
  match k with
  | KCont _ _ => Raise AttributeError
  | KBandit _ arms => Ok arms
  | KDisc vals => Ok (map (fun x => [x]) vals)
  | KCat cats => Ok (eye (length cats))
  end.
(** space.py:374-378 get_continuous_space, 409-413 get_discrete_space: the variables as the user gave them, not expanded *)
Definition get_continuous_space (sp : space) : list variable := filter (fun v => is_continuous (v_kind v)) (sp_vars sp).
Definition get_discrete_space (sp : space) : list variable := filter (fun v => is_discrete (v_kind v)) (sp_vars sp).
