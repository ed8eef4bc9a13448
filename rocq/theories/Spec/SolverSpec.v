(** Local optimizers. *)
From Coq Require Import String List ZArith QArith Qcanon Bool.
From Verif.Model Require Import Py Space Design Optim Solver.
From Verif.Spec Require Import MaskSpec.
Import ListNotations.
Local Open Scope nat_scope.

(** The objective value a function given to L-BFGS-B stands for. *)
Definition value_at (F : lbfgs_fun) (x : vec) : res Qc :=
  match F with Approx f => f x | Exact fg => p <- fg x ;; Ok (fst p) end.
(** L-BFGS-B, unless it ends abnormally, reports the value of the point it reports. *)
Definition honest (s : lbfgs) : Prop := forall F x0 bs n a, s F x0 bs n = Ok a -> la_abnormal a = false -> value_at F (la_x a) = Ok (la_f a).
(** Started inside the box it stays inside ... *)
Definition boxed (s : lbfgs) : Prop := forall F x0 bs n a, s F x0 bs n = Ok a -> la_abnormal a = false -> inside x0 bs -> inside (la_x a) bs.
(** ... and does not end above the start. *)
Definition improving (s : lbfgs) : Prop := forall F x0 bs n a v, s F x0 bs n = Ok a -> la_abnormal a = false -> value_at F x0 = Ok v -> (la_f a <= v)%Qc.
(** DIRECT and cma return a point of the box. *)
Definition box_boxed (s : box_solver) : Prop := forall f x0 lo hi n x, s f x0 lo hi n = Ok x -> inside x (combine lo hi).
Definition boxed_solvers (e : solvers) : Prop :=
  boxed (so_lbfgs e) /\ (forall s, so_direct e = Some s -> box_boxed s) /\ (forall s, so_cma e = Some s -> box_boxed s).
