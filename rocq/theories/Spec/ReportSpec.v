(** Reports and tables. *)
From Coq Require Import String List ZArith QArith Qcanon Bool.
From Verif.Model Require Import Py Report.
Import ListNotations.
Local Open Scope nat_scope.

(** The report [w] has a line with this label, and every such line shows these values. *)
Definition shows (w : list line) (label : string) (vs : list field) : Prop :=
  In (label, vs) w /\ forall vs', In (label, vs') w -> vs' = vs.
Definition number_of {A} (p : A -> bool) (l : list A) : nat := length (filter p l).

(** Reading a table of evaluations back: the second column and the remaining ones. *)
Definition read_row (r : vec) : option (Qc * vec) := match r with _ :: y :: x => Some (y, x) | _ => None end.
Definition read_evaluations (t : table) : list (option (Qc * vec)) := map read_row (snd t).
