(** Base layer: Python exceptions as values, numbers, list primitives.
    Definitions only.  Numbers are canonical rationals [Qc]: exact arithmetic, no NaN
    (simplification, see DESIGN.md). *)
From Coq Require Import String List ZArith QArith Qcanon Bool.
Import ListNotations.
Local Open Scope nat_scope.

Global Arguments Q2Qc : simpl never.
Global Arguments Qcplus : simpl never.
Global Arguments Qcmult : simpl never.
Global Arguments Qcminus : simpl never.
Global Arguments Qcopp : simpl never.

(** The exceptions the modelled code raises itself, or provokes in Python / numpy.
    InvalidConfigError, InvalidVariableNameError, FullyExplored: GPyOpt/core/errors.py:4-15. *)
Inductive exn :=
| IndexError | ValueError | TypeError | ZeroDivisionError | AttributeError | KeyError
| NameError | OSError | RuntimeError | OverflowError | AssertionError | NotImplementedError | UnboundLocalError | LinAlgError | ImportError
| InvalidConfigError | InvalidVariableNameError | FullyExplored
| PlainException           (* raise Exception(message) *)
| UserError (n : nat)      (* raised by the user's objective or constraint *)
| OutOfModel               (* inputs of a shape this model does not describe *).

(** Result of a Python call that may raise. *)
Inductive res (A : Type) :=
| Ok (a : A)
| Raise (e : exn).
Arguments Ok {A} a.
Arguments Raise {A} e.

Definition bind {A B} (r : res A) (f : A -> res B) : res B :=
  match r with Ok a => f a | Raise e => Raise e end.
Notation "x <- r ;; k" := (bind r (fun x => k)) (at level 60, r at next level, right associativity).

Definition is_ok {A} (r : res A) : bool := match r with Ok _ => true | Raise _ => false end.

(** Evaluate left to right, stop at the first exception (a Python for-loop or comprehension). *)
Fixpoint mapM {A B} (f : A -> res B) (l : list A) : res (list B) :=
  match l with
  | [] => Ok []
  | a :: t => b <- f a ;; bs <- mapM f t ;; Ok (b :: bs)
  end.

(** Comparisons of numbers as booleans ([<], [<=], [==] in Python). *)
Definition qcle (x y : Qc) : bool := Qle_bool x y.
Definition qclt (x y : Qc) : bool := negb (Qle_bool y x).
Definition qceq (x y : Qc) : bool := Qeq_bool x y.

Definition vec := list Qc.
Definition mat := list vec.

Definition q0 : Qc := 0%Qc.
Definition q1 : Qc := 1%Qc.
(** Natural number as a number. *)
Definition nat2q (n : nat) : Qc := Q2Qc (inject_Z (Z.of_nat n)).
Definition z2q (z : Z) : Qc := Q2Qc (inject_Z z).

(** Python int(x) on a number: truncation towards zero. *)
Definition py_int (x : Qc) : Z := Z.quot (Qnum x) (Zpos (Qden x)).

(** Python sequence indexing l[i], with negative indices counted from the end. *)
Definition py_index (n : nat) (i : Z) : option nat :=
  if (0 <=? i)%Z then
    (if (i <? Z.of_nat n)%Z then Some (Z.to_nat i) else None)
  else
    (if (- Z.of_nat n <=? i)%Z then Some (Z.to_nat (i + Z.of_nat n)) else None).

(** l[i] for a non-negative position, IndexError when out of range. *)
Definition get {A} (l : list A) (i : nat) : res A :=
  match nth_error l i with Some a => Ok a | None => Raise IndexError end.

(** l[i] := a for a position in range. *)
Fixpoint set_nth {A} (l : list A) (i : nat) (a : A) : list A :=
  match l, i with
  | [], _ => []
  | _ :: t, O => a :: t
  | h :: t, S k => h :: set_nth t k a
  end.

(** numpy slice x[a:a+n] of a vector (never raises, clips at the end). *)
Definition slice {A} (l : list A) (a n : nat) : list A := firstn n (skipn a l).

(** np.argmin / np.argmax: position of the first minimum / maximum; ValueError on empty input is
    represented by None.  [best] keeps the first among equals. *)
Fixpoint argbest_from {A} (lt : A -> A -> bool) (l : list A) (i bi : nat) (b : A) : nat :=
  match l with
  | [] => bi
  | a :: t => if lt a b then argbest_from lt t (S i) i a else argbest_from lt t (S i) bi b
  end.
Definition argbest {A} (lt : A -> A -> bool) (l : list A) : option nat :=
  match l with [] => None | a :: t => Some (argbest_from lt t 1 0 a) end.
Definition argmin (l : vec) : option nat := argbest qclt l.
Definition argmax (l : vec) : option nat := argbest (fun a b => qclt b a) l.

(** Sum of a list of numbers, left to right as Python's sum. *)
Definition qsum (l : vec) : Qc := fold_left Qcplus l q0.

(** min / max of a non-empty sequence (Python's min and max, first among equals). *)
Definition lmin (a : Qc) (l : vec) : Qc := fold_left (fun m x => if qclt x m then x else m) l a.
Definition lmax (a : Qc) (l : vec) : Qc := fold_left (fun m x => if qclt m x then x else m) l a.
Definition py_min (l : vec) : res Qc := match l with [] => Raise ValueError | a :: t => Ok (lmin a t) end.
Definition py_max (l : vec) : res Qc := match l with [] => Raise ValueError | a :: t => Ok (lmax a t) end.
Definition qabs (x : Qc) : Qc := if qclt x q0 then (- x)%Qc else x.
