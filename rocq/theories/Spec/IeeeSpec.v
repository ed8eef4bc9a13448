(** Values that are not finite numbers. *)
From Coq Require Import String List Bool Arith QArith Qcanon.
From Coq Require Import Reals.
From Verif.Model Require Import Py Ieee.
Import ListNotations.
Local Open Scope nat_scope.

(** The order of the extended numbers; NaN is comparable to nothing. *)
Definition le_ext (x y : fl Qc) : Prop :=
  match x, y with
  | NaN, _ | _, NaN => False
  | NInf, _ | _, PInf => True
  | Fin a, Fin b => (a <= b)%Qc
  | _, _ => False
  end.
Definition lt_ext (x y : fl Qc) : Prop := le_ext x y /\ ~ le_ext y x.
Definition number (x : fl Qc) : Prop := x <> NaN.
(** [i] is the first position with property [P]. *)
Definition first_at {A} (P : A -> Prop) (l : list A) (i : nat) : Prop :=
  (exists x, nth_error l i = Some x /\ P x) /\ forall j y, j < i -> nth_error l j = Some y -> ~ P y.
(** [m] is the least element of [l], which has no NaN. *)
Definition least (m : fl Qc) (l : list (fl Qc)) : Prop := In m l /\ forall y, In y l -> le_ext m y.

Definition finite_value (x : fl R) : Prop := exists a, x = Fin a.
