(** Calls made from inside the objective. *)
From Coq Require Import String List ZArith QArith Qcanon Bool.
From Verif.Model Require Import Py Space Design Optim Objective BO Reentrant.
From Verif.Spec Require Import Examples BOSpec BOExamples.
Import ListNotations.
Local Open Scope nat_scope.

(** The objective never uses the optimizer; it asks for a suggestion with every evaluation; it asks, when it asks, with
    the context [c]. *)
Definition silent (ask : asking) : Prop := forall h x, ask h x = None.
Definition always_asks (ask : asking) : Prop := forall h x, ask h x <> None.
Definition asks_with (c : option (list (string * Qc))) (ask : asking) : Prop := forall h x c' p i, ask h x = Some (c', p, i) -> c' = c.
(** Asks with every evaluation, without arguments. *)
Definition curious : asking := fun _ _ => Some (None, None, None).
(** A surrogate in whose batches the context shows: the point is the value the context fixes, or the counter. *)
Definition heeding (o : option objective) : env nat :=
  mk_env nat line true 1 None o
    (fun m _ cm => (S m, Some (Ok [match cm_context_value cm with [] => [nat2q (S m)] | v => v end])))
    (fun m X Y => (m, if Nat.eqb (length X) (length Y) then None else Some ValueError))
    (fun m => Some [nat2q m]) nat2q (fun x => x) (fun _ _ => None).
(** A surrogate that answers only without a context. *)
Definition choosy (o : option objective) : env nat :=
  mk_env nat line true 1 None o
    (fun m _ cm => (S m, match cm_context_value cm with [] => Some (Ok [[nat2q (S m)]]) | _ => None end))
    (fun m _ _ => (m, None)) (fun m => Some [nat2q m]) nat2q (fun x => x) (fun _ _ => None).
