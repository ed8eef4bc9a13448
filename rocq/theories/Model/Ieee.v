(** Values that are not finite numbers.  The other files work with exact finite numbers; here are the functions through
    which NaN and infinities pass that an objective or an acquisition may return.  Definitions only.
    Simplifications: finite arithmetic is exact (no overflow, no rounding), and there is one zero, positive. *)
From Coq Require Import String List Bool Arith QArith Qcanon.
From Coq Require Import Reals.
From Verif.Model Require Import Py.
Import ListNotations.
Local Open Scope nat_scope.

Inductive fl (A : Type) := NaN | NInf | PInf | Fin (a : A).
Arguments NaN {A}. Arguments NInf {A}. Arguments PInf {A}. Arguments Fin {A} a.
Definition is_nan {A} (x : fl A) : bool := match x with NaN => true | _ => false end.

Section Order.
Context {A : Type} (ltb : A -> A -> bool).
(** the comparison < of IEEE 754 *)
Definition flt (x y : fl A) : bool :=
  match x, y with
  | NaN, _ | _, NaN => false
  | NInf, NInf => false
  | NInf, _ => true
  | _, NInf => false
  | PInf, _ => false
  | _, PInf => true
  | Fin a, Fin b => ltb a b
  end.

(** numpy.minimum and numpy.maximum: NaN wins *)
Definition np_minimum (x y : fl A) : fl A := if is_nan x then x else if is_nan y then y else if flt y x then y else x.
Definition np_maximum (x y : fl A) : fl A := if is_nan x then x else if is_nan y then y else if flt x y then y else x.
(** ndarray.min, ndarray.max: ValueError for an empty array *)
Definition np_min (l : list (fl A)) : res (fl A) := match l with [] => Raise ValueError | x :: t => Ok (fold_left np_minimum t x) end.
Definition np_max (l : list (fl A)) : res (fl A) := match l with [] => Raise ValueError | x :: t => Ok (fold_left np_maximum t x) end.
(** numpy.argmin: the scan stops at the first NaN, otherwise it keeps the first of the smallest.  [i] the position of the
    head of the list, [j], [m] the best so far *)
Fixpoint argmin_from (l : list (fl A)) (i j : nat) (m : fl A) : nat :=
  match l with
  | [] => j
  | x :: t => if is_nan m then j else if is_nan x then i else if flt x m then argmin_from t (S i) i x else argmin_from t (S i) j m
  end.
Definition np_argmin (l : list (fl A)) : res nat := match l with [] => Raise ValueError | x :: t => Ok (argmin_from t 1 0 x) end.
(** Python's min(l, key): an element replaces the best so far when its key is < the best key *)
Fixpoint min_by_from {B} (key : B -> fl A) (l : list B) (b : B) : B :=
  match l with [] => b | x :: t => if flt (key x) (key b) then min_by_from key t x else min_by_from key t b end.
Definition min_by {B} (key : B -> fl A) (l : list B) : res B := match l with [] => Raise ValueError | x :: t => Ok (min_by_from key t x) end.
End Order.

(** ---- the report: general.py:131-142 best_value (sign = 1), bo.py:206-212 _compute_results.  Y_best, x_opt, fx_opt.
    ndarray.min of the non-empty slices Y[:i+1] cannot fail. *)
Definition best_value_fl (Y : list (fl Qc)) : res (list (fl Qc)) :=
  mapM (fun i => np_min qclt (firstn (i + 1) Y)) (seq 0 (length Y)).
Definition compute_results_fl (X : mat) (Y : list (fl Qc)) : res (list (fl Qc) * vec * fl Qc) :=
  yb <- best_value_fl Y ;;
  i <- np_argmin qclt Y ;;
  x <- get X i ;;
  m <- np_min qclt Y ;;
  Ok (yb, x, m).

(** ---- acquisition_optimizer.py:74 min(optimized_points, key=lambda t: t[1]) *)
Definition best_candidate (pts : list (vec * fl Qc)) : res (vec * fl Qc) := min_by qclt snd pts.

(** ---- general.py:203-234 normalize *)
Local Open Scope R_scope.
Definition rltb (a b : R) : bool := if Rlt_dec a b then true else false.
Definition fadd (x y : fl R) : fl R :=
  match x, y with
  | NaN, _ | _, NaN => NaN
  | PInf, NInf | NInf, PInf => NaN
  | PInf, _ | _, PInf => PInf
  | NInf, _ | _, NInf => NInf
  | Fin a, Fin b => Fin (a + b)
  end.
Definition fopp (x : fl R) : fl R := match x with NaN => NaN | PInf => NInf | NInf => PInf | Fin a => Fin (- a) end.
Definition fsub (x y : fl R) : fl R := fadd x (fopp y).
(** sign of a number that is not NaN *)
Definition fsign (x : fl R) : comparison :=
  match x with
  | PInf => Gt | NInf => Lt | NaN => Eq
  | Fin a => if rltb 0 a then Gt else if rltb a 0 then Lt else Eq
  end.
(** an infinity with the sign of x times y *)
Definition signed_inf (x y : fl R) : fl R :=
  match fsign x, fsign y with
  | Eq, _ | _, Eq => NaN
  | Gt, Gt | Lt, Lt => PInf
  | _, _ => NInf
  end.
Definition fmul (x y : fl R) : fl R :=
  match x, y with
  | NaN, _ | _, NaN => NaN
  | Fin a, Fin b => Fin (a * b)
  | _, _ => signed_inf x y
  end.
Definition fdiv (x y : fl R) : fl R :=
  match x, y with
  | NaN, _ | _, NaN => NaN
  | Fin a, Fin b => if Req_EM_T b 0 then signed_inf x PInf else Fin (a / b)
  | Fin _, _ => Fin 0
  | _, Fin b => if Req_EM_T b 0 then x else signed_inf x y
  | _, _ => NaN
  end.
Definition fsqrt (x : fl R) : fl R :=
  match x with Fin a => if rltb a 0 then NaN else Fin (sqrt a) | PInf => PInf | _ => NaN end.
Definition fsum (l : list (fl R)) : fl R := fold_right fadd (Fin 0) l.
Definition fmean (l : list (fl R)) : fl R := fdiv (fsum l) (Fin (INR (List.length l))).
(** ndarray.std with ddof = 0 *)
Definition fstd (l : list (fl R)) : fl R :=
  let m := fmean l in fsqrt (fmean (map (fun y => fmul (fsub y m) (fsub y m)) l)).
Definition normalize_fl (shape : list nat) (Y : list (fl R)) (normalization_type : string) : res (list (fl R)) :=
  if negb (Nat.eqb (fold_right Nat.max 0%nat shape) (List.length Y)) then Raise NotImplementedError else
  if String.eqb normalization_type "stats" then
    let m := fmean Y in
    let Y_norm := map (fun y => fsub y m) Y in
    let std := fstd Y in
    Ok (if flt rltb (Fin 0) std then map (fun y => fdiv y std) Y_norm else Y_norm)
  else if String.eqb normalization_type "maxmin" then
    m <- np_min rltb Y ;;
    let Y_norm := map (fun y => fsub y m) Y in
    M <- np_max rltb Y ;;
    let y_range := fsub M m in
    Ok (if flt rltb (Fin 0) y_range then map (fun y => fmul (Fin 2) (fsub (fdiv y y_range) (Fin (/ 2)))) Y_norm else Y_norm)
  else Raise ValueError.
