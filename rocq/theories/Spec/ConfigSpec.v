(** What the merged configuration has to be, path by path. *)
From Coq Require Import String List.
From Verif.Model Require Import Py Config.
Import ListNotations.

(** The value at a path of keys, if there is one. *)
Fixpoint find (c : json) (p : list string) : option json :=
  match p with
  | [] => Some c
  | k :: p' => match c with JDict d => match dget k d with Some v => find v p' | None => None end | _ => None end
  end.
Definition dict_at (c : json) (p : list string) : Prop := exists d, find c p = Some (JDict d).
(** a value that is not a dictionary *)
Definition leaf_at (c : json) (p : list string) : Prop := exists v, find c p = Some v /\ is_dict v = false.
(** Python dictionaries have no key twice. *)
Inductive proper : json -> Prop :=
| proper_dict d : NoDup (map fst d) -> (forall k v, In (k, v) d -> proper v) -> proper (JDict d)
| proper_leaf v : is_dict v = false -> proper v.
