(** Minima. *)
From Coq Require Import Reals.
Local Open Scope R_scope.

(** The smallest value of f on D is v, and it is attained exactly at the points M. *)
Definition minimum_at {A} (f : A -> R) (D : A -> Prop) (v : R) (M : A -> Prop) : Prop :=
  (exists x, D x /\ M x) /\ (forall x, D x -> v <= f x) /\ (forall x, D x -> (f x = v <-> M x)).
Definition on_plane (f : R -> R -> R) (p : R * R) : R := f (fst p) (snd p).
Definition anywhere {A} (_ : A) : Prop := True.
Definition in_box (a b c d : R) (p : R * R) : Prop := a <= fst p <= b /\ c <= snd p <= d.
