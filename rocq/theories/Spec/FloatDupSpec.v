(** When two doubles are the same number, and which rows a duplicate manager should know. *)
From Coq Require Import Reals List QArith Qcanon Qreals.
From Flocq Require Import IEEE754.BinarySingleNaN.
From Verif.Model Require Import Float.
From Verif.Spec Require Import FloatSpec.
Import ListNotations.
Local Open Scope R_scope.

(** the same number or the same infinity; a NaN is the same as nothing *)
Definition same_number (x y : float) : Prop :=
  (number x /\ number y /\ val x = val y) \/ exists s, x = B754_infinity s /\ y = B754_infinity s.
Definition same_row (a b : list float) : Prop := Forall2 same_number a b.
(** some entry is not zero *)
Definition has_nonzero_f (M : list (list float)) : Prop := exists r x, In r M /\ In x r /\ ~ (number x /\ val x = 0).
(** evaluated, or in one of the two optional matrices *)
Definition known_rows (X : list (list float)) (pending ignored : option (list (list float))) (r : list float) : Prop :=
  In r X \/ (exists P, pending = Some P /\ In r P) \/ (exists P, ignored = Some P /\ In r P).
(** the double is exactly the rational number; rows and matrices of such *)
Definition stands_for (x : float) (q : Qc) : Prop := number x /\ val x = Q2R (this q).
Definition row_for (a : list float) (v : list Qc) : Prop := Forall2 stands_for a v.
Definition matrix_for (A : list (list float)) (V : list (list Qc)) : Prop := Forall2 row_for A V.
Definition option_for (A : option (list (list float))) (V : option (list (list Qc))) : Prop :=
  match A, V with None, None => True | Some a, Some v => matrix_for a v | _, _ => False end.
