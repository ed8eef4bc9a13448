(** Vocabulary for the queries of a design space (C05, C98). *)
From Coq Require Import String List ZArith QArith Qcanon Bool.
From Verif.Model Require Import Py Space.
From Verif.Spec Require Import SpaceSpec.
Import ListNotations.
Local Open Scope nat_scope.

(** A categorical variable with one category: its only column always holds 1. *)
Definition one_category (k : kind) : Prop := exists c, k = KCat [c].

(** [l] lists, in increasing order and without repetition, exactly the positions of the variables with [P]. *)
Fixpoint increasing (l : list nat) : Prop :=
  match l with a :: (b :: _) as t => a < b /\ increasing t | _ => True end.
Definition positions_of (P : kind -> Prop) (ks : list kind) (l : list nat) : Prop :=
  increasing l /\ forall i, In i l <-> exists k, nth_error ks i = Some k /\ P k.

Definition continuous_kind (k : kind) : Prop := exists lo hi, k = KCont lo hi.
Definition discrete_kind (k : kind) : Prop := exists vals, k = KDisc vals.

(** The value lists of the discrete variables of a space, in order. *)
Fixpoint discrete_domains (ks : list kind) : list vec :=
  match ks with [] => [] | KDisc vals :: t => vals :: discrete_domains t | _ :: t => discrete_domains t end.

(** The arms of the bandit variables of a space, in order. *)
Fixpoint bandit_arms (ks : list kind) : mat :=
  match ks with [] => [] | KBandit _ arms :: t => arms ++ bandit_arms t | _ :: t => bandit_arms t end.

(** What remains of a list after dropping some elements. *)
Inductive kept_from {A} : list A -> list A -> Prop :=
| kept_nil : kept_from [] []
| kept_keep x a b : kept_from a b -> kept_from (x :: a) (x :: b)
| kept_drop x a b : kept_from a b -> kept_from a (x :: b).
