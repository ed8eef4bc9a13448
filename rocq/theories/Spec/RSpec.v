(** Specification vocabulary for the analytic layer (real numbers): partial derivatives, gradients, Gaussian densities and
    expectations.  Nothing here refers to the code. *)
From Coq Require Import Reals List.
From Coquelicot Require Import Coquelicot.
Import ListNotations.
Local Open Scope R_scope.

(** A point is a list of coordinates. *)
Definition pt := list R.
(** [put x i t]: the point [x] with coordinate [i] set to [t]. *)
Definition put (x : pt) (i : nat) (t : R) : pt := firstn i x ++ t :: skipn (S i) x.
Definition coord (x : pt) (i : nat) : R := nth i x 0.
(** [d] is the partial derivative of [f] at [x] in coordinate [i]. *)
Definition partial (f : pt -> R) (x : pt) (i : nat) (d : R) : Prop := is_derive (fun t => f (put x i t)) (coord x i) d.
(** [g] is the gradient of [f] at [x]. *)
Definition gradient (f : pt -> R) (x g : pt) : Prop :=
  length g = length x /\ forall i, (i < length x)%nat -> partial f x i (coord g i).
(** A predicate on points that holds near [x] along every coordinate. *)
Definition near (P : pt -> Prop) (x : pt) : Prop :=
  forall i, (i < length x)%nat -> locally (coord x i) (fun t => P (put x i t)).

(** Density of the normal distribution with mean [m] and standard deviation [s]. *)
Definition normal (m s y : R) : R := exp (- (((y - m) / s) * ((y - m) / s)) / 2) / (s * sqrt (2 * PI)).
(** [v] is the expectation of [h] under that distribution (improper Riemann integral over the whole line). *)
Definition expectation (m s : R) (h : R -> R) (v : R) : Prop :=
  is_RInt_gen (fun y => h y * normal m s y) (Rbar_locally m_infty) (Rbar_locally p_infty) v.
(** The improvement of an outcome [y] over a target. *)
Definition improvement (target y : R) : R := Rmax (target - y) 0.
(** [v] is the probability of an outcome at most [c]. *)
Definition probability_le (m s c v : R) : Prop := is_RInt_gen (normal m s) (Rbar_locally m_infty) (at_point c) v.

Definition sumR (l : list R) : R := fold_right Rplus 0 l.
Definition average (l : list R) : R := sumR l / INR (length l).
Definition distance (x y : pt) : R := sqrt (sumR (map (fun p => (fst p - snd p) * (fst p - snd p)) (combine x y))).

(** Vectors as functions of the index, for the parts of the code that work with matrices of a fixed size. *)
Definition upd (v : nat -> R) (i : nat) (t : R) : nat -> R := fun k => if Nat.eqb k i then t else v k.
(** [d] is the derivative of [f] at [v] in coordinate [i]. *)
Definition slope (f : (nat -> R) -> R) (v : nat -> R) (i : nat) (d : R) : Prop := is_derive (fun t => f (upd v i t)) (v i) d.
(** The sum of f 0, ..., f (n-1). *)
Definition sum_to (n : nat) (f : nat -> R) : R := sumR (map f (seq 0 n)).
