(** Concrete inputs used by the non-vacuity examples and the counterexamples. *)
From Coq Require Import String List ZArith QArith Qcanon Bool.
From Verif.Model Require Import Py Space.
Import ListNotations.
Local Open Scope nat_scope.
Local Open Scope string_scope.

Definition z (n : Z) : Qc := z2q n.
Definition q (a : Z) (b : positive) : Qc := Q2Qc (a # b).

Definition d_cont n lo hi := mk_descr (Some n) (Some "continuous") (Some (RNums [lo; hi])) None.
Definition d_disc n vals := mk_descr (Some n) (Some "discrete") (Some (RNums vals)) None.
Definition d_cat n vals := mk_descr (Some n) (Some "categorical") (Some (RNums vals)) None.
Definition d_bandit n arms := mk_descr (Some n) (Some "bandit") (Some (RRows true arms)) None.
Definition with_dim (d : descr) k := mk_descr (d_name d) (d_type d) (d_domain d) (Some k).

(** a continuous variable of dimension 2, a categorical one with three categories, a discrete one *)
Definition ds_mixed : list descr :=
  [ with_dim (d_cont "a" (z (-1)) (z 2)) 2; d_cat "b" [z 0; z 1; z 2]; d_disc "c" [z 1; z 4; z 9] ].
(** a single bandit with three arms of width two *)
Definition ds_bandit : list descr := [ d_bandit "arms" [[z 0; z 0]; [z 1; z 5]; [z (-2); z 3]] ].
(** two bandits of width two *)
Definition ds_two_bandits : list descr :=
  [ d_bandit "p" [[z 1; z 2]; [z 3; z 4]]; d_bandit "q" [[z 5; z 6]; [z 7; z 8]] ].

(** The space a description builds (a default one if it does not build; the examples check that it does). *)
Definition no_space : space := mk_space [] [] [] [] 0 None.
Definition the_space (ds : list descr) (cs : option (list constr)) : space :=
  match design_space ds cs with Ok sp => sp | Raise _ => no_space end.
