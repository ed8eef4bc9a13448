(** Rows of doubles that are points of a design space. *)
From Coq Require Import Reals List QArith Qcanon Qreals.
From Flocq Require Import IEEE754.BinarySingleNaN.
From Verif.Model Require Import Py Space Float FloatRow.
From Verif.Spec Require Import FloatSpec FloatDupSpec.
Import ListNotations.
Local Open Scope R_scope.

(** A sensible variable. *)
Definition fwell (k : fkind) : Prop :=
  match k with
  | FCont lo hi => interval (lo, hi)
  | FDisc dom => dom <> [] /\ forall v, In v dom -> number v
  | FCat n => (1 <= n)%nat
  end.
(** The i-th of n categories: one 1.0 and otherwise 0.0. *)
Definition hot (n i : nat) : list float := map (fun j => of_Z (if Nat.eqb j i then 1 else 0)) (seq 0 n).
(** The columns of a variable hold a value of its domain. *)
Definition fvalid (k : fkind) (b : list float) : Prop :=
  match k with
  | FCont lo hi => exists x, b = [x] /\ inside (lo, hi) x
  | FDisc dom => exists x, b = [x] /\ In x dom
  | FCat n => exists i, (i < n)%nat /\ b = hot n i
  end.
(** What rounding can cope with: the right number of columns, and no NaN for a continuous variable (infinities are fine). *)
Definition freadable (k : fkind) (b : list float) : Prop :=
  length b = fwidth k /\ match k with FCont _ _ => forall x, In x b -> nan_p x = false | _ => True end.
(** A row is one block per variable, side by side. *)
Inductive fblocks (P : fkind -> list float -> Prop) : list fkind -> list float -> Prop :=
| fblocks_nil : fblocks P [] []
| fblocks_cons k ks b r : P k b -> fblocks P ks r -> fblocks P (k :: ks) (b ++ r).
(** The same variable with rational numbers. *)
Definition kind_for (k : fkind) (K : kind) : Prop :=
  match k, K with
  | FCont lo hi, KCont l h => stands_for lo l /\ stands_for hi h
  | FDisc dom, KDisc vals => row_for dom vals
  | FCat n, KCat cats => n = length cats
  | _, _ => False
  end.
(** Rational numbers, and the differences to the values of a discrete variable are doubles. *)
Definition exact_block (k : fkind) (b : list float) : Prop :=
  length b = fwidth k /\ (forall x, In x b -> number x) /\
  match k with FDisc dom => forall v x, In v dom -> In x b -> number (fsub v x) /\ val (fsub v x) = val v - val x | _ => True end.
