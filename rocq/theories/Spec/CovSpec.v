(** Covariance matrices. *)
From Coq Require Import Reals List.
From Verif.Spec Require Import RSpec.
Local Open Scope R_scope.
(** Positive semidefinite: v' V v >= 0 for every vector v. *)
Definition psd (n : nat) (V : nat -> nat -> R) : Prop := forall v : nat -> R, 0 <= sum_to n (fun i => sum_to n (fun j => v i * V i j * v j)).
