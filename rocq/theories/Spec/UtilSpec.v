(** Vocabulary for the statements about normalize and merge_values. *)
From Coq Require Import Reals List.
From Verif.Spec Require Import RSpec.
Import ListNotations.
Local Open Scope R_scope.

(** The (population) standard deviation. *)
Definition deviation (l : list R) : R := sqrt (average (map (fun y => (y - average l) * (y - average l)) l)).
Definition constant (l : list R) : Prop := forall a b, In a l -> In b l -> a = b.
(** Entry by entry, [N] is ordered as [Y]. *)
Definition order_preserving (Y N : list R) : Prop := length N = length Y /\
  forall i j, (i < length Y)%nat -> (j < length Y)%nat -> (nth i Y 0 <= nth j Y 0 <-> nth i N 0 <= nth j N 0).
(** The shapes of vectors: one axis carries all the entries, every other axis has length 1. *)
Definition vector_shape (shape : list nat) (n : nat) : Prop := In n shape /\ forall k, In k shape -> k = n \/ k = 1%nat.

(** A matrix with at least one row and one column. *)
Definition matrix {A} (m : list (list A)) (rows columns : nat) : Prop :=
  length m = rows /\ (0 < rows)%nat /\ (0 < columns)%nat /\ forall r, In r m -> length r = columns.
