(** The kinds of variables entropy search can handle. *)
From Coq Require Import List.
From Verif.Model Require Import Py Space.

Definition numeric_kind (k : kind) : Prop := match k with KCont _ _ | KDisc _ => True | _ => False end.
