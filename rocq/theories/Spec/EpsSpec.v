(** The last two evaluated points are within eps of each other. *)
From Coq Require Import List QArith Qcanon.
From Verif.Model Require Import Py Space.
From Verif.Spec Require Import BOSpec.
Import ListNotations.

Definition together (eps : Qc) (X : mat) : Prop := exists pre a b, X = pre ++ [b; a] /\ within_eps eps a b.
