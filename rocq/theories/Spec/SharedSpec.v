(** What it means that an optimizer does not notice the others (Props/PShared.v). *)
From Coq Require Import String List ZArith QArith Qcanon Bool Arith.
From Verif.Model Require Import Py Space Design Optim Objective BO.
Import ListNotations.

Section Spec.
Context {S G : Type}.
(** what updateModel leaves and raises depends on the data it is given, not on what the surrogate was fitted to before *)
Definition forgets (E : env (S * G)) : Prop := forall c c' g X Y, e_update E (c, g) X Y = e_update E (c', g) X Y.
(** two states of an optimizer that differ at most in the state of the surrogate *)
Definition same_optimizer (s s' : st (S * G)) : Prop :=
  s_X s = s_X s' /\ s_Y s = s_Y s' /\ s_report s = s_report s' /\ s_sugg s = s_sugg s' /\ s_ynew s = s_ynew s' /\ s_hist s = s_hist s' /\
  s_params s = s_params s' /\ s_cost s = s_cost s' /\ s_num s = s_num s' /\ s_cum s = s_cum s' /\ s_ctx s = s_ctx s' /\
  s_tick s = s_tick s' /\ s_updates s = s_updates s' /\ snd (s_model s) = snd (s_model s').
(** what belongs to the i-th optimizer *)
Definition of {A} (i : nat) (l : list (nat * A)) : list A := map snd (filter (fun p => Nat.eqb (fst p) i) l).
End Spec.
