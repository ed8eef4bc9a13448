(** Rows of doubles as a user sees them, and what is asked of the generators and of the local optimizer (Props/PFloatPipe.v). *)
From Coq Require Import Reals List ZArith.
From Verif.Model Require Import Py Float FloatRow FloatPipe.
From Verif.Spec Require Import FloatSpec FloatRowSpec FloatAnchorSpec.
Import ListNotations.
Local Open Scope R_scope.

(** A value of a variable: for a categorical variable the number of a category. *)
Definition fvalue (k : fkind) (x : float) : Prop :=
  match k with
  | FCont lo hi => inside (lo, hi) x
  | FDisc dom => In x dom
  | FCat n => exists i, (i < n)%nat /\ number x /\ val x = INR i
  end.
(** A configuration: one value per variable. *)
Definition configuration (ks : list fkind) (row : list float) : Prop := Forall2 fvalue ks row.
(** Sensible variables, with at most 2^53 categories. *)
Definition fspace (ks : list fkind) : Prop := ks <> [] /\ Forall fwell ks /\ forall n, In (FCat n) ks -> (Z.of_nat n <= 2 ^ 53)%Z.
(** The same numbers. *)
Definition same_values (a b : list float) : Prop := map val a = map val b.
(** A local optimizer that never returns NaN for a continuous variable nor a wrong number of columns; infinities and points outside of the box are fine. *)
Definition no_nan (ks : list fkind) (local : nat -> list float -> res (list float)) : Prop :=
  forall k x0, exists x, local k x0 = Ok x /\ fblocks freadable ks x.
(** The generator gives configurations, np.argsort sorts, and the local optimizer gives no NaN. *)
Definition ordinary (ks : list fkind) (a : acquiring) : Prop :=
  Forall (configuration ks) (a_design a) /\ (forall l, sorts l (a_argsort a l)) /\ no_nan ks (a_local a).
