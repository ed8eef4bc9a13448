(** Small concrete objects used by the examples about the optimization loop. *)
From Coq Require Import String List ZArith QArith Qcanon Bool.
From Verif.Model Require Import Py Space Design Optim Objective BO.
From Verif.Spec Require Import Examples.
Import ListNotations.
Local Open Scope nat_scope.
Local Open Scope string_scope.

Definition line : space := the_space [d_cont "x" (z (-10)) (z 10)] None.
(** The "surrogate" is a counter that rejects inputs and outputs of different lengths, the batch suggests the counter plus
    one, the clock advances by one with each reading. *)
Definition toy (interval : Z) (o : option objective) : env nat :=
  mk_env nat line true interval None o (fun m _ _ => (S m, Some (Ok [[nat2q (S m)]])))
    (fun m X Y => (m, if Nat.eqb (length X) (length Y) then None else Some ValueError))
    (fun m => Some [nat2q m]) nat2q (fun x => x) (fun _ _ => None).
(** x -> (x - 3)^2, and the same function raising an exception at 2 *)
Definition square3 : objfun := fun _ x => match x with a :: _ => Ok ((a - z 3) * (a - z 3))%Qc | [] => Raise IndexError end.
Definition fails_at_2 : objfun :=
  fun h x => match x with a :: _ => if qceq a (z 2) then Raise (UserError 7) else square3 h x | [] => Raise IndexError end.
Definition obj1 : objective := mk_obj square3 1 true.
Definition obj1_fails : objective := mk_obj fails_at_2 1 true.
Definition fresh (Y : option vec) : st nat := bo_init [[z 0]; [z (-1)]] Y ArgNone 0.
