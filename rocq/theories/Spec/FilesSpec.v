(** Words with a choice of letters. *)
From Coq Require Import String Ascii List.
Import ListNotations.

(** the word has one of the two letters at each position, and no other letters *)
Fixpoint spelled (s : string) (letters : list (ascii * ascii)) : Prop :=
  match s, letters with
  | EmptyString, [] => True
  | String c s, (a, b) :: letters => (c = a \/ c = b) /\ spelled s letters
  | _, _ => False
  end.
