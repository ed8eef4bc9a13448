(** What is asked of the library's exp and erfc, and that correctly rounded ones have it (Props/PFloatAcq.v). *)
From Coq Require Import Reals List.
From Flocq Require Import Core IEEE754.BinarySingleNaN.
From Verif.Model Require Import Float FloatAcq AcqR.
From Verif.Spec Require Import FloatSpec.
Local Open Scope R_scope.

Definition plus_inf : float := B754_infinity false.
Definition minus_inf : float := B754_infinity true.
(** [x] is a number at most [a], or -inf *)
Definition at_most (a : R) (x : float) : Prop := x = minus_inf \/ (number x /\ val x <= a).
Definition at_least (a : R) (x : float) : Prop := x = plus_inf \/ (number x /\ a <= val x).

(** exp of something that is not positive is between 0 and 1, at least 1/4 from -1 on, and underflows to 0 below -1076 at the latest; erfc is between 0 and 2, at least 1
    left of 0, decreasing, and underflows to 0 above 33 at the latest *)
Record libm_like (L : libm) : Prop := {
  exp_range : forall x, at_most 0 x -> number (exp_f L x) /\ 0 <= val (exp_f L x) <= 1;
  exp_near : forall x, number x -> -1 <= val x <= 0 -> / 4 <= val (exp_f L x);
  exp_underflow : forall x, at_most (-1076) x -> val (exp_f L x) = 0;
  erfc_range : forall x, nan_p x = false -> number (erfc_f L x) /\ 0 <= val (erfc_f L x) <= 2;
  erfc_left : forall x, at_most 0 x -> 1 <= val (erfc_f L x);
  erfc_underflow : forall x, at_least 33 x -> val (erfc_f L x) = 0;
  erfc_decreasing : forall x y, number x -> number y -> val x <= val y -> val (erfc_f L y) <= val (erfc_f L x) }.

(** Rounding to the nearest double, as for the arithmetic operations *)
Definition nearest (x : R) : R := round radix2 (FLT_exp (-1074) 53) ZnearestE x.
(** The functions of the library return the double nearest to the real result, and the limits at the infinities *)
Definition correctly_rounded (L : libm) : Prop :=
  (forall x, number x -> val x <= 0 -> number (exp_f L x) /\ val (exp_f L x) = nearest (exp (val x))) /\
  (number (exp_f L minus_inf) /\ val (exp_f L minus_inf) = 0) /\
  (forall x, number x -> number (erfc_f L x) /\ val (erfc_f L x) = nearest (erfc (val x))) /\
  (number (erfc_f L minus_inf) /\ val (erfc_f L minus_inf) = 2) /\ (number (erfc_f L plus_inf) /\ val (erfc_f L plus_inf) = 0).
(** The same number, or the same infinity *)
Definition same (x y : float) : Prop := (number x /\ number y /\ val x = val y) \/ exists b, x = B754_infinity b /\ y = B754_infinity b.
