(** Vocabulary for entropy search. *)
From Coq Require Import Reals List.
From Coquelicot Require Import Coquelicot.
From Verif.Spec Require Import RSpec.
Import ListNotations.
Local Open Scope R_scope.

(** The normalised difference of two coordinates: the direction (e_l - e_s)/sqrt 2. *)
Definition contrast (s l : nat) (x : nat -> R) : R := (x l - x s) / sqrt 2.
Definition symmetric (V : nat -> nat -> R) : Prop := forall i j, V i j = V j i.
(** The points other than k, numbered 0, 1, .. in increasing order. *)
Definition other (k a : nat) : nat := if Nat.ltb a k then a else S a.
Definition positive_definite (D : nat) (S : nat -> nat -> R) : Prop :=
  forall x, (exists i, (i < D)%nat /\ x i <> 0) -> 0 < sum_to D (fun i => sum_to D (fun j => x i * S i j * x j)).
(** (M, V) are the mean and covariance of the density proportional to N(f; Mu, Sigma) times the messages
    exp(- P a / 2 (c_a'f)^2 + MP a c_a'f), one for each point other than k, with c_a the contrast of that point with k:
    (I + Sigma Q) V = Sigma and (I + Sigma Q) M = Mu + Sigma q, where Q = sum of P a c_a c_a' and q = sum of MP a c_a. *)
Definition carries_messages (D k : nat) (Mu : nat -> R) (Sigma : nat -> nat -> R) (P MP M : nat -> R) (V : nat -> nat -> R) : Prop :=
  (forall i j, V i j + sum_to (D - 1) (fun a => P a * contrast k (other k a) (Sigma i) * contrast k (other k a) (fun m => V m j)) = Sigma i j) /\
  (forall i, M i + sum_to (D - 1) (fun a => P a * contrast k (other k a) (Sigma i) * contrast k (other k a) M)
             = Mu i + sum_to (D - 1) (fun a => MP a * contrast k (other k a) (Sigma i))).
(** The n by n matrices B and N are inverse to each other. *)
Definition inverse_of (n : nat) (B N : nat -> nat -> R) : Prop := forall a c, (a < n)%nat -> (c < n)%nat ->
  sum_to n (fun b => B a b * N b c) = (if Nat.eqb a c then 1 else 0) /\ sum_to n (fun b => N a b * B b c) = (if Nat.eqb a c then 1 else 0).
(** The matrix moved by t along E. *)
Definition moved (V E : nat -> nat -> R) (t : R) (i j : nat) : R := V i j + t * E i j.
(** [ldet] behaves at B, whose inverse is N, like the logarithm of the determinant: along every differentiable path through B
    with velocity B' its derivative is the trace of N B' (Jacobi's formula). *)
Definition jacobi (n : nat) (ldet : (nat -> nat -> R) -> R) (B N : nat -> nat -> R) : Prop :=
  forall (Bt : R -> nat -> nat -> R) (B' : nat -> nat -> R),
    (forall a b, (a < n)%nat -> (b < n)%nat -> Bt 0 a b = B a b /\ is_derive (fun t => Bt t a b) 0 (B' a b)) ->
    is_derive (fun t => ldet (Bt t)) 0 (sum_to n (fun a => sum_to n (fun b => N a b * B' b a))).
(** Mean and variance of a Gaussian N(m, v) restricted to the non-negative numbers, where e is the ratio of the standard normal
    density to its distribution function at the normalised mean; the precision and precision-mean of the factor that takes
    N(m, v) to a Gaussian with these moments. *)
Definition restricted_mean (m v e : R) : R := m + sqrt v * e.
Definition restricted_variance (m v e : R) : R := v * (1 - e * (e + m / sqrt v)).
Definition factor_precision (m v e : R) : R := / restricted_variance m v e - / v.
Definition factor_mean (m v e : R) : R := restricted_mean m v e / restricted_variance m v e - m / v.
(** Neither falls below the single precision epsilon, the smallest message the code keeps. *)
Definition kept_message (m v e : R) : Prop := / 2 ^ 23 <= factor_precision m v e /\ / 2 ^ 23 <= factor_mean m v e.
(** Weighted averages with weights exp(l k), and the second derivative they determine: if the l k have first derivatives
    [J k] and second derivatives [H k], then k |-> l k - ln (sum of all exp(l m)) has the second derivatives
    [second k i j] = H k i j - (weighted mean of H m i j + J m i * J m j) + (weighted mean of J m i)(weighted mean of J m j). *)
Definition weighted (D : nat) (l f : nat -> R) : R :=
  sum_to D (fun m => exp (l m) * f m) / sum_to D (fun m => exp (l m)).
Definition second (D : nat) (l : nat -> R) (J : nat -> nat -> R) (H : nat -> nat -> nat -> R) (k i j : nat) : R :=
  H k i j - weighted D l (fun m => H m i j + J m i * J m j) + weighted D l (fun m => J m i) * weighted D l (fun m => J m j).
