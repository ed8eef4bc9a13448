(** What a double stands for, NaN and infinities included, and the order of doubles. *)
From Coq Require Import Reals List QArith Qcanon.
From Flocq Require Import IEEE754.BinarySingleNaN.
From Verif.Model Require Import Py Float Ieee.
From Verif.Spec Require Import IeeeSpec FloatDupSpec.
Import ListNotations.

(** the double is this extended number *)
Definition is_value (x : float) (v : fl Qc) : Prop :=
  match v with NaN => x = B754_nan | PInf => x = B754_infinity false | NInf => x = B754_infinity true | Fin q => stands_for x q end.
(** both are numbers or infinities, and the first is at most the second *)
Definition at_most (x y : float) : Prop := exists a b, is_value x a /\ is_value y b /\ le_ext a b.
(** the same report, once in doubles and once in extended numbers *)
Definition same_report {A} (r : res (list float * A * float)) (r' : res (list (fl Qc) * A * fl Qc)) : Prop :=
  match r, r' with
  | Ok (yb, x, m), Ok (yb', x', m') => Forall2 is_value yb yb' /\ x = x' /\ is_value m m'
  | Raise e, Raise e' => e = e'
  | _, _ => False
  end.
