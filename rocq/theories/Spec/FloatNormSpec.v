(** Averages of real numbers, and the data for which nothing overflows (Props/PFloatNorm.v). *)
From Coq Require Import Reals List ZArith.
From Flocq Require Import Core IEEE754.BinarySingleNaN.
From Verif.Model Require Import Float.
From Verif.Spec Require Import FloatSpec FloatStopSpec.
Import ListNotations.
Local Open Scope R_scope.

Definition average (l : list R) : R := rsum l / INR (length l).
(** at least one and at most 2^40 numbers of size at most 2^400 *)
Definition data (Y : list float) : Prop :=
  Y <> [] /\ (Z.of_nat (length Y) <= 2 ^ 40)%Z /\ forall y, In y Y -> number y /\ Rabs (val y) <= bpow radix2 400.
