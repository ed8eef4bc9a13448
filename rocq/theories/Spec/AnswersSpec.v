(** What the answers of an objective mean.  No dependence on the evaluation code. *)
From Coq Require Import List QArith Qcanon.
From Verif.Model Require Import Py Space Objective Answers.
Import ListNotations.

(** the answer is the one number v: as a number, as a list or vector of one entry, or as a 1 x 1 array *)
Definition says (a : answer) (v : Qc) : Prop := a = AScalar v \/ a = AVec [v] \/ a = AMat 1 [[v]].
(** the answer is one column with the entries c *)
Inductive column : answer -> vec -> Prop :=
| col_number v : column (AScalar v) [v]
| col_vector v : column (AVec [v]) [v]
| col_matrix m c : Forall2 (fun row v => row = [v]) m c -> column (AMat 1 m) c.
(** two-dimensional arrays are rectangular *)
Definition rectangular (a : answer) : Prop := match a with AMat w m => Forall (fun row => length row = w) m | _ => True end.
(** the answers when the rows are asked one after the other *)
Definition asked (f : anyfun) (h : list vec) (rows : mat) : list (res answer) :=
  map (fun i => f (h ++ firstn i rows) (nth i rows [])) (seq 0 (length rows)).
(** the function f gives the numbers of g, each in one of the three forms, and fails when g fails *)
Definition same (f : anyfun) (g : objfun) : Prop :=
  forall h x, match g h x with Ok v => exists a, f h x = Ok a /\ says a v | Raise e => f h x = Raise e end.
Definition proper (f : anyfun) : Prop := forall h x a, f h x = Ok a -> rectangular a.
