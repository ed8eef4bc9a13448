(** Doubles as numbers. *)
From Coq Require Import Reals List ZArith.
From Flocq Require Import IEEE754.BinarySingleNaN.
From Verif.Model Require Import Float.
Import ListNotations.
Local Open Scope R_scope.

(** the real number a finite double stands for *)
Definition val (x : float) : R := B2R x.
(** neither infinite nor NaN *)
Definition number (x : float) : Prop := is_finite x = true.
(** a number in the interval *)
Definition inside (b : float * float) (x : float) : Prop := number x /\ val (fst b) <= val x <= val (snd b).
(** an interval of numbers *)
Definition interval (b : float * float) : Prop := number (fst b) /\ number (snd b) /\ val (fst b) <= val (snd b).
(** a draw of the unit interval, without 1 *)
Definition unit_draw (u : float) : Prop := number u /\ 0 <= val u < 1.
(** the width of the interval is less than 2^1024 *)
Definition no_overflow (b : float * float) : Prop := number (fsub (snd b) (fst b)).
