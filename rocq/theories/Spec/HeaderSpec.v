(** What it means for the columns of the models file to carry the right names. *)
From Coq Require Import String List.
From Verif.Model Require Import Py Report Header.
Import ListNotations.

(** The labels of all entries of the parameters, in the order in which the library stores their values *)
Fixpoint entry_labels (ps : list param) : list string :=
  match ps with [] => [] | p :: ps' => p_labels p ++ entry_labels ps' end.

(** The file has a title for every column of every row: that of the iteration, and for the k-th value the label of the k-th entry *)
Definition titled (ps : list param) (t : table) : Prop :=
  forall row, In row (snd t) -> forall k v, nth_error row k = Some v ->
    nth_error (fst t) k = match k with 0 => Some "Iteration"%string | S j => nth_error (entry_labels ps) j end.

(** Every row that was recorded has one value for each entry *)
Definition recorded_for (ps : list param) (H : mat) : Prop := forall r, In r H -> List.length r = List.length (entry_labels ps).
(** A parameter of one entry is labelled with its name (the library numbers the entries of larger ones) *)
Definition plain_label (p : param) : Prop := List.length (p_labels p) = 1 -> p_labels p = [p_name p].
