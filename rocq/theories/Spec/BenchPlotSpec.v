(** Vocabulary for the statements about the plots of the benchmark functions. *)
From Coq Require Import List Reals.
Import ListNotations.
Local Open Scope R_scope.

(** The entry in row i and column j. *)
Definition entry {A} (Z : list (list A)) (i j : nat) : option A := match nth_error Z i with Some r => nth_error r j | None => None end.
(** [rows] rows of [columns] entries. *)
Definition shaped {A} (rows columns : nat) (Z : list (list A)) : Prop := length Z = rows /\ forall r, In r Z -> length r = columns.
(** The k-th of 100 equally spaced values from bound to bound. *)
Definition grade (b : R * R) (k : nat) : R := fst b + INR k * ((snd b - fst b) / 99).
(** The k-th draw of the noise, 0 when there is none. *)
Definition drawn (noise : option (list R)) (k : nat) (e : R) : Prop :=
  match noise with None => e = 0 | Some l => nth_error l k = Some e end.
(** A point of a box. *)
Definition within (b1 b2 : R * R) (p : R * R) : Prop := fst b1 <= fst p <= snd b1 /\ fst b2 <= snd p <= snd b2.
