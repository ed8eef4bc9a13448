(** Rows of doubles whose distance does not overflow (Props/PFloatBandit.v). *)
From Coq Require Import Reals List ZArith.
From Flocq Require Import Core IEEE754.BinarySingleNaN.
From Verif.Model Require Import Float.
From Verif.Spec Require Import FloatSpec.
Local Open Scope R_scope.

(** a row of numbers of size at most 2^400, at least one and at most 2^40 of them *)
Definition moderate (a : list float) : Prop :=
  (1 <= length a)%nat /\ (Z.of_nat (length a) <= 2 ^ 40)%Z /\ forall x, In x a -> number x /\ Rabs (val x) <= bpow radix2 400.
