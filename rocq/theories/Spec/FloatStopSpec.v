(** The distance of two rows of doubles, as a real number. *)
From Coq Require Import Reals List ZArith.
From Flocq Require Import IEEE754.BinarySingleNaN.
From Verif.Model Require Import Float.
From Verif.Spec Require Import FloatSpec.
Import ListNotations.
Local Open Scope R_scope.

(** the sum of a list of real numbers *)
Fixpoint rsum (l : list R) : R := match l with [] => 0 | x :: r => x + rsum r end.
(** the Euclidean distance of the points the two rows stand for *)
Definition real_distance (a b : list float) : R :=
  sqrt (rsum (map (fun p => (val (fst p) - val (snd p)) * (val (fst p) - val (snd p))) (combine a b))).
(** a row of numbers *)
Definition numbers (a : list float) : Prop := forall x, In x a -> number x.
(** NaN, minus infinity or a negative number *)
Definition below (e : float) : Prop := nan_p e = true \/ e = B754_infinity true \/ (number e /\ val e < 0).
(** plus infinity *)
Definition infinite : float := B754_infinity false.
