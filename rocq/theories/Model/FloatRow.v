(** round_optimum on whole rows of doubles: GPyOpt/core/task/space.py:321-342.  Definitions only.  Spaces without bandit variables. *)
From Coq Require Import List.
From Verif.Model Require Import Py Float.
Import ListNotations.

(** variables.py:84-95, 162-167, 189-203: a variable of the expanded space; of a categorical variable only the number of categories matters *)
Inductive fkind := FCont (lo hi : float) | FDisc (dom : list float) | FCat (n : nat).
(** dimensionality_in_model *)
Definition fwidth (k : fkind) : nat := match k with FCont _ _ | FDisc _ => 1 | FCat n => n end.
(** variables.py:100-116, 175-187, 219-227 round *)
Definition fround (k : fkind) (a : list float) : res (list float) :=
  match k with
  | FCont lo hi => x <- get a 0 ;; Ok [round_continuous lo hi x]
  | FDisc dom => x <- get a 0 ;; r <- round_discrete dom x ;; Ok [r]
  | FCat _ => round_categorical a
  end.
(** space.py:333-340 the loop, from model column [i] on *)
Fixpoint fround_from (ks : list fkind) (i : nat) (x : list float) : res (list (list float)) :=
  match ks with
  | [] => Ok []
  | k :: t => r <- fround k (slice x i (fwidth k)) ;; rs <- fround_from t (i + fwidth k) x ;; Ok (r :: rs)
  end.
(** space.py:321-342 round_optimum of a vector; np.concatenate of nothing is a ValueError *)
Definition round_optimum_f (ks : list fkind) (x : list float) : res (list float) :=
  rs <- fround_from ks 0 x ;; match ks with [] => Raise ValueError | _ => Ok (concat rs) end.
