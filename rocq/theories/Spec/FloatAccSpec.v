(** How accurate the library is assumed to be, and inputs far from overflow (Props/PFloatAcc.v). *)
From Coq Require Import Reals.
From Flocq Require Import Core IEEE754.BinarySingleNaN.
From Verif.Model Require Import Float FloatAcq AcqR.
From Verif.Spec Require Import FloatSpec.
Local Open Scope R_scope.

(** exp and erfc are within 2^-50 of the exact value, left of 0 and everywhere *)
Definition accurate (L : libm) : Prop :=
  (forall x, number x -> val x <= 0 -> Rabs (val (exp_f L x) - exp (val x)) <= bpow radix2 (-50)) /\
  (forall x, number x -> Rabs (val (erfc_f L x) - erfc (val x)) <= bpow radix2 (-50)).
(** a number of size at most 2^900, about 10^270 *)
Definition moderate (x : float) : Prop := number x /\ Rabs (val x) <= bpow radix2 900.
(** the sizes of the numbers that are subtracted *)
Definition size3 (a b c : float) : R := Rabs (val a) + Rabs (val b) + Rabs (val c).
(** the double nearest to 1e-10 *)
Definition floor10 : R := 7737125245533627 * bpow radix2 (-86).
