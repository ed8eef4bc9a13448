(** Contexts: what it means that a row carries a context and that a vector is the rest of the row. *)
From Coq Require Import String List ZArith QArith Qcanon Bool Sorting.Sorted.
From Verif.Model Require Import Py Space.
From Verif.Spec Require Import SpaceSpec.
Import ListNotations.
Local Open Scope nat_scope.

(** A context dictionary: distinct variable names with the user's values. *)
Definition context := list (string * Qc).
Definition is_dict (c : context) : Prop := NoDup (map fst c).
Definition distinct_names (sp : space) : Prop := NoDup (map x_name (sp_xvars sp)).

(** All names are variables of the space. *)
Definition names_known (sp : space) (c : context) : Prop :=
  forall n, In n (map fst c) -> exists v, In v (sp_xvars sp) /\ x_name v = n.
(** All values satisfy [P] for their variable. *)
Definition values_ok (P : kind -> Qc -> Prop) (sp : space) (c : context) : Prop :=
  forall n x v, In (n, x) c -> In v (sp_xvars sp) -> x_name v = n -> P (x_kind v) x.

(** Block [b] of a row stands for the user's value [x]. *)
Definition encodes (k : kind) (x : Qc) (b : vec) : Prop :=
  match k with
  | KCont _ _ | KDisc _ => b = [x]
  | KCat cats => exists i, x = nat2q i /\ one_hot (length cats) i b
  | KBandit _ _ => False
  end.

(** The row holds the context's values in the columns of the context's variables. *)
Definition carries (sp : space) (c : context) (row : vec) : Prop :=
  forall n x v, In (n, x) c -> In v (sp_xvars sp) -> x_name v = n ->
    exists b, encodes (x_kind v) x b /\ map (nth_error row) (x_idx_mod v) = map Some b.

Definition context_column (sp : space) (c : context) (j : nat) : Prop :=
  exists v, In v (sp_xvars sp) /\ In (x_name v) (map fst c) /\ In j (x_idx_mod v).
(** [js] are the other columns of the model space, in increasing order. *)
Definition free_columns (sp : space) (c : context) (js : list nat) : Prop :=
  StronglySorted lt js /\ forall j, In j js <-> j < model_dimensionality sp /\ ~ context_column sp c j.
(** [v] lists the row's entries in the free columns. *)
Definition restricts (sp : space) (c : context) (row v : vec) : Prop :=
  exists js, free_columns sp c js /\ map (nth_error row) js = map Some v.

(** Changing one coordinate of a vector by [h]. *)
Definition nudge (v : vec) (j : nat) (h : Qc) : vec :=
  match nth_error v j with Some x => set_nth v j (x + h)%Qc | None => v end.
(** [d] is the partial derivative of [f] at [v] in coordinate [j] (rational increments). *)
Definition partial (f : vec -> res Qc) (v : vec) (j : nat) (d : Qc) : Prop :=
  exists y, f v = Ok y /\
  forall eps, (0 < eps)%Qc -> exists delta, (0 < delta)%Qc /\
    forall h, h <> 0%Qc -> (- delta < h)%Qc -> (h < delta)%Qc ->
      exists yh, f (nudge v j h) = Ok yh /\
        (- eps <= (yh - y) / h - d)%Qc /\ ((yh - y) / h - d <= eps)%Qc.

(** Categorical domains written as 0..k-1 (what the encoding supports). *)
Definition canonical_cats (k : kind) : Prop :=
  match k with KCat cats => forall x, In x cats -> exists n, n < length cats /\ x = nat2q n | _ => True end.
