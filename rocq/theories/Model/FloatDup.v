(** The duplicate manager on rows of doubles: GPyOpt/util/duplicate_manager.py:17-36.  Definitions only. *)
From Coq Require Import List Bool.
From Verif.Model Require Import Py Float.
Import ListNotations.

(** Equality of two tuples of np.float64.  Python compares entries by identity first; the entries of x.flatten() are new objects every
    time, so this is == for each entry.  Entries that are == have the same hash, so membership in a set is == with one of its members.
    (A NaN of numpy may have any hash; it is == to nothing.) *)
Fixpoint tuple_eq (a b : list float) : bool :=
  match a, b with
  | [], [] => true
  | x :: a', y :: b' => feq x y && tuple_eq a' b'
  | _, _ => false
  end.
(** np.any of a matrix or None: NaN and the infinities count as true, both zeros as false *)
Definition any_f (M : option (list (list float))) : bool :=
  match M with None => false | Some M => existsb (existsb (fun x => negb (feq x f0))) M end.
(** duplicate_manager.py:21-29 unique_points *)
Definition unique_points_f (X : list (list float)) (pending ignored : option (list (list float))) : list (list float) :=
  X ++ (if any_f pending then match pending with Some P => P | None => [] end else [])
    ++ (if any_f ignored then match ignored with Some P => P | None => [] end else []).
(** duplicate_manager.py:32-36 is_zipped_x_duplicate *)
Definition is_duplicate_f (X : list (list float)) (pending ignored : option (list (list float))) (t : list float) : bool :=
  existsb (tuple_eq t) (unique_points_f X pending ignored).
