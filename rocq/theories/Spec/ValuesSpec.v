(** Vocabulary for the possible values of variables. *)
From Coq Require Import List ZArith QArith Qcanon Bool.
From Verif.Model Require Import Py Space Values.
From Verif.Spec Require Import SpaceSpec QuerySpec.
Import ListNotations.
Local Open Scope nat_scope.

(** Rounding [a] to the domain of a variable gives [b]. *)
Definition rounds_to (v : xvar) (a b : vec) : Prop := var_round v a = Ok (R1 b) \/ var_round v a = Ok (R2 b).
(** One value of every variable, in order, side by side: all ways to choose them. *)
Fixpoint choices (vals : list mat) : mat :=
  match vals with [] => [[]] | m :: r => flat_map (fun b => map (app b) (choices r)) m end.
