(** Designs under constraints (Props/PFloatReject.v). *)
From Coq Require Import Reals List ZArith.
From Flocq Require Import IEEE754.BinarySingleNaN.
From Verif.Model Require Import Py Float FloatRow FloatCons FloatPipe.
From Verif.Spec Require Import FloatSpec FloatPipeSpec FloatConsSpec.
Import ListNotations.
Local Open Scope R_scope.

(** The double computed for every constraint is at most 0. *)
Definition kept (es : list fexpr) (row : list float) : Prop :=
  forall e, In e es -> exists v, xeval row e = Ok v /\ (number v /\ val v <= 0 \/ v = (B754_infinity true : float)).
(** The rows with the property, in their order. *)
Inductive selected {A} (P : A -> Prop) : list A -> list A -> Prop :=
| sel_nil : selected P [] []
| sel_take x l l' : P x -> selected P l l' -> selected P (x :: l) (x :: l')
| sel_skip x l l' : ~ P x -> selected P l l' -> selected P (x :: l) l'.
(** A generator whose uniform draws are in [0, 1) and whose choices are positions in the domains. *)
Definition fair (ks : list fkind) (u : nat -> nat -> nat -> float) (c : nat -> nat -> nat -> nat) : Prop :=
  (forall t i k, unit_draw (u t i k)) /\
  (forall t i k dom, nth_error ks k = Some (FDisc dom) -> (c t i k < length dom)%nat) /\ (forall t i k m, nth_error ks k = Some (FCat m) -> (c t i k < m)%nat).
(** Intervals whose width is a double. *)
Definition widths (ks : list fkind) : Prop := forall lo hi, In (FCont lo hi) ks -> no_overflow (lo, hi).
(** The constraints mention only columns there are. *)
Definition closed (ks : list fkind) (es : list fexpr) : Prop := forall e i, In e es -> mentions i e -> (i < length ks)%nat.
(** [Ds] are the designs of the first rounds, n rows each. *)
Definition rounds (ks : list fkind) (u : nat -> nat -> nat -> float) (c : nat -> nat -> nat -> nat) (n : nat) (Ds : list (list (list float))) : Prop :=
  forall t D, nth_error Ds t = Some D -> random_design_f ks (u t) (c t) n = Ok D.
