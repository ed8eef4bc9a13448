(** Vocabulary for the statements about the Lipschitz constant and the random forest. *)
From Coq Require Import Reals List.
From Coquelicot Require Import Coquelicot.
From Verif.Spec Require Import RSpec.
Import ListNotations.
Local Open Scope R_scope.

Definition norm2 (v : pt) : R := sqrt (sumR (map (fun d => d * d) v)).
Definition inner (v w : pt) : R := sumR (map (fun p => fst p * snd p) (combine v w)).
(** The point [x] moved by [t] times [d]. *)
Definition move (x d : pt) (t : R) : pt := map (fun p => fst p + t * snd p) (combine x d).
(** [g] is the derivative of [f] at [x]: it gives the slope in every direction. *)
Definition derivative_at (f : pt -> R) (x g : pt) : Prop :=
  length g = length x /\ forall d, length d = length x -> is_derive (fun t => f (move x d t)) 0 (inner g d).
Definition in_box (bounds : list (R * R)) (x : pt) : Prop := Forall2 (fun b v => fst b <= v <= snd b) bounds x.
(** [L] is a Lipschitz constant of [f] on the box. *)
Definition lipschitz_on (bounds : list (R * R)) (f : pt -> R) (L : R) : Prop :=
  forall x y, in_box bounds x -> in_box bounds y -> Rabs (f x - f y) <= L * distance x y.

(** What may be expected of a minimizer started in the box: a value that is attained in the box and is not above the start. *)
Definition attains (solve : (pt -> R) -> pt -> list (R * R) -> R) (f : pt -> R) (bounds : list (R * R)) : Prop :=
  forall x0, in_box bounds x0 -> exists x, in_box bounds x /\ solve f x0 bounds = f x.
Definition descends (solve : (pt -> R) -> pt -> list (R * R) -> R) (f : pt -> R) (bounds : list (R * R)) : Prop :=
  forall x0, in_box bounds x0 -> solve f x0 bounds <= f x0.
(** ... and of a perfect one. *)
Definition minimizes (solve : (pt -> R) -> pt -> list (R * R) -> R) (f : pt -> R) (bounds : list (R * R)) : Prop :=
  forall x0 x, in_box bounds x0 -> in_box bounds x -> solve f x0 bounds <= f x.
(** Ordered bounds, draws from the unit interval and data in the box. *)
Definition proper (bounds : list (R * R)) (u : nat -> nat -> R) (X : list pt) : Prop :=
  List.Forall (fun b => fst b <= snd b) bounds /\ (forall i k, 0 <= u i k <= 1) /\ List.Forall (in_box bounds) X.
