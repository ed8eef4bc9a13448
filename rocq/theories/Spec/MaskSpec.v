(** Constraints in the choice of a suggestion. *)
From Coq Require Import String List ZArith QArith Qcanon Bool.
From Verif.Model Require Import Py Space Design Optim.
From Verif.Spec Require Import SpaceSpec DesignSpec ContextSpec SuggestSpec.
Import ListNotations.
Local Open Scope nat_scope.

(** The configuration a model row stands for satisfies (violates one of) the constraints. *)
Definition row_feasible (sp : space) (cs : list constr) (x : vec) : Prop := exists t, user_form sp x t /\ feasible cs t.
Definition row_infeasible (sp : space) (cs : list constr) (x : vec) : Prop :=
  exists t c, user_form sp x t /\ In c cs /\ violates c t.
(** [y] is one of the points acquisition.optimize chooses from: the result of the local optimization from one of the anchors. *)
Definition optimised (a : acq) (ns : nat) (g : gen) (loc : nat -> local_opt) (odm : option dupmgr) (y : vec) : Prop :=
  exists o anchors k x0, choose_optimizer (aq_optimizer a) = Ok o /\ acq_anchors a ns g odm = Some (Ok anchors) /\
    nth_error anchors k = Some x0 /\ candidate a o (loc k) odm x0 y.
(** Every categorical variable has at least two categories. *)
Definition no_single_category (ks : list kind) : Prop :=
  Forall (fun k => match k with KCat cats => length cats <> 1 | _ => True end) ks.
Definition positive (f : acqf) : Prop := forall x v, f x = Ok v -> (0 < v)%Qc.
(** A local optimizer that, started inside the bounds, stays there and does not return a worse point than it started from. *)
Definition inside (x : vec) (bs : list (Qc * Qc)) : Prop := Forall2 (fun v b => (fst b <= v)%Qc /\ (v <= snd b)%Qc) x bs.
Definition descends (loc : local_opt) : Prop := forall bs x0 f g v, inside x0 bs -> loc bs x0 f g = Ok v ->
  inside v bs /\ forall a, f x0 = Ok a -> exists b, f v = Ok b /\ (b <= a)%Qc.
(** All variables are continuous. *)
Definition all_continuous (ks : list kind) : Prop := ks <> [] /\ Forall (fun k => is_continuous k = true) ks.
