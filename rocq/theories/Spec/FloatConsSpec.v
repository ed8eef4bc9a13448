(** Constraints in exact arithmetic, and how far the doubles may be off. *)
From Coq Require Import Reals List ZArith.
From Flocq Require Import Core.
From Verif.Model Require Import Py Float FloatCons.
From Verif.Spec Require Import FloatSpec.
Import ListNotations.
Local Open Scope R_scope.

(** The value of the expression in exact arithmetic, the coordinates being those of the row. *)
Fixpoint exact (x : list float) (e : fexpr) : R :=
  match e with
  | XNum v => val v
  | XCol i => match nth_error x i with Some v => val v | None => 0 end
  | XNeg a => - exact x a
  | XAbs a => Rabs (exact x a)
  | XSqrt a => sqrt (exact x a)
  | XAdd a b => exact x a + exact x b
  | XSub a b => exact x a - exact x b
  | XMul a b => exact x a * exact x b
  | XDiv a b => exact x a / exact x b
  end.
(** The error of rounding a real number of magnitude at most [r] to a double. *)
Definition rounding (r : R) : R := bpow radix2 (-53) * r + bpow radix2 (-1075).
(** A bound on the error of the computed value: what the errors of the operands can contribute, and the rounding of the result. *)
Fixpoint tolerance (x : list float) (e : fexpr) : R :=
  match e with
  | XNum _ | XCol _ => 0
  | XNeg a | XAbs a => tolerance x a
  | XSqrt a => let d := sqrt (tolerance x a) in d + rounding (sqrt (exact x a) + d)
  | XAdd a b => let d := tolerance x a + tolerance x b in d + rounding (Rabs (exact x a + exact x b) + d)
  | XSub a b => let d := tolerance x a + tolerance x b in d + rounding (Rabs (exact x a - exact x b) + d)
  | XMul a b => let d := tolerance x a * Rabs (exact x b) + Rabs (exact x a) * tolerance x b + tolerance x a * tolerance x b in
      d + rounding (Rabs (exact x a * exact x b) + d)
  | XDiv a b => let d := (tolerance x a * Rabs (exact x b) + Rabs (exact x a) * tolerance x b) / (Rabs (exact x b) * (Rabs (exact x b) - tolerance x b)) in
      d + rounding (Rabs (exact x a / exact x b) + d)
  end.
(** Every intermediate result is a number (no overflow, no NaN), and no denominator might be zero. *)
Fixpoint regular (x : list float) (e : fexpr) : Prop :=
  (exists v, xeval x e = Ok v /\ number v) /\
  match e with
  | XNum _ | XCol _ => True
  | XNeg a | XAbs a | XSqrt a => regular x a
  | XAdd a b | XSub a b | XMul a b => regular x a /\ regular x b
  | XDiv a b => regular x a /\ regular x b /\ tolerance x b < Rabs (exact x b)
  end.
(** The columns an expression mentions. *)
Fixpoint mentions (i : nat) (e : fexpr) : Prop :=
  match e with
  | XNum _ => False
  | XCol j => j = i
  | XNeg a | XAbs a | XSqrt a => mentions i a
  | XAdd a b | XSub a b | XMul a b | XDiv a b => mentions i a \/ mentions i b
  end.
(** A column or a literal. *)
Definition leaf (e : fexpr) : Prop := match e with XNum _ | XCol _ => True | _ => False end.
