(** Concrete entropy-search data. *)
From Coq Require Import Reals.
From Verif.Spec Require Import RSpec.
Local Open Scope R_scope.

(** Two log-weights, the first one equal to the first mean, the second one constant; their first and second derivatives. *)
Definition two (w : nat -> R) (k : nat) : R := if Nat.eqb k 0 then w 0%nat else 0.
Definition two_first (w : nat -> R) (k i : nat) : R := if Nat.eqb k 0 then (if Nat.eqb i 0 then 1 else 0) else 0.
Definition two_second (k i j : nat) : R := 0.
Definition origin (i : nat) : R := 0.
(** Two independent points with unit variance and equal means. *)
Definition unit_cov (i j : nat) : R := if Nat.eqb i j then 1 else 0.
