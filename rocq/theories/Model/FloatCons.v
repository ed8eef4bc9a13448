(** Constraints evaluated in double precision: GPyOpt/core/task/space.py:296-311 indicator_constraints.  Definitions only. *)
From Coq Require Import List ZArith Bool.
From Flocq Require Import IEEE754.BinarySingleNaN.
From Verif.Model Require Import Py Float FloatStop.
Import ListNotations.

(** The expression of a constraint on one row of x.  Only the operations whose results IEEE 754 prescribes: not **, np.exp and the like.
    A literal is the double Python reads; columns are counted from 0 (negative column numbers are in Model/Constraints.v). *)
Inductive fexpr :=
| XNum (v : float) | XCol (i : nat)                          (* 0.5, x[:,i] *)
| XNeg (a : fexpr) | XAbs (a : fexpr) | XSqrt (a : fexpr)    (* -a, np.abs(a), np.sqrt(a) *)
| XAdd (a b : fexpr) | XSub (a b : fexpr) | XMul (a b : fexpr) | XDiv (a b : fexpr).
Definition fneg : float -> float := Bopp.
(** constraint(x) for the row [x]; numpy gives inf and NaN where Python would raise *)
Fixpoint xeval (x : list float) (e : fexpr) : res float :=
  match e with
  | XNum v => Ok v
  | XCol i => match nth_error x i with Some v => Ok v | None => Raise IndexError end
  | XNeg a => u <- xeval x a ;; Ok (fneg u)
  | XAbs a => u <- xeval x a ;; Ok (fabs u)
  | XSqrt a => u <- xeval x a ;; Ok (fsqrt u)
  | XAdd a b => u <- xeval x a ;; v <- xeval x b ;; Ok (fadd u v)
  | XSub a b => u <- xeval x a ;; v <- xeval x b ;; Ok (fsub u v)
  | XMul a b => u <- xeval x a ;; v <- xeval x b ;; Ok (fmul u v)
  | XDiv a b => u <- xeval x a ;; v <- xeval x b ;; Ok (fdiv u v)
  end.
(** space.py:300-311 for the row [x]: the product of the indicators (constraint(x) <= 0)*1 *)
Fixpoint satisfies (es : list fexpr) (x : list float) : res bool :=
  match es with
  | [] => Ok true
  | e :: es => v <- xeval x e ;; b <- satisfies es x ;; Ok (fle v f0 && b)
  end.
Definition indicator_constraints_f (es : list fexpr) (X : list (list float)) : res (list float) :=
  mapM (fun x => b <- satisfies es x ;; Ok (of_Z (if b then 1 else 0))) X.
