(** Whole runs with the real evaluators: configurations in the form the user sees. *)
From Coq Require Import String List ZArith QArith Qcanon Bool.
From Verif.Model Require Import Py Space Design Optim Objective BO Pipeline.
From Verif.Spec Require Import SpaceSpec DesignSpec ContextSpec SuggestSpec BOSpec.
Import ListNotations.
Local Open Scope nat_scope.

(** The entries of a variable in a user-space row: an arm, or one value of the domain. *)
Definition value_of (k : kind) (b : vec) : Prop :=
  match k with
  | KBandit _ arms => In b arms
  | _ => exists x, b = [x] /\ valid_value k x
  end.
(** A user-space row with a value of its domain for every variable. *)
Definition in_domain (ks : list kind) (t : vec) : Prop := blocks value_of ks t.

(** Variables that have a value in the context have that value in the row. *)
Definition agrees_with (sp : space) (oc : option context) (t : vec) : Prop :=
  forall c n x i v, oc = Some c -> In (n, x) c -> nth_error (sp_xvars sp) i = Some v -> x_name v = n -> nth_error t i = Some x.

(** The random numbers are random numbers, and designs are not empty. *)
Definition sound {M} (g : suggester M) : Prop :=
  (forall m k, good_gen (sg_gen g m k)) /\ 1 <= sg_ns g /\ 1 <= sg_ns' g.

Definition context_of (o : op) : option context :=
  match o with ORun _ _ _ _ c => c | OSuggest c _ _ => c end.
Definition good_contexts (sp : space) (ops : list op) : Prop := Forall (fun o => good_context sp (context_of o)) ops.

(** Spaces with finitely many configurations, and how many these are (at most). *)
Definition finite (ks : list kind) : Prop := Forall (fun k => match k with KCont _ _ => False | _ => True end) ks.
Definition choices (k : kind) : nat :=
  match k with KCont _ _ => 0 | KDisc vals => length vals | KCat cats => length cats | KBandit _ arms => length arms end.
Definition configurations (ks : list kind) : nat := fold_right Nat.mul 1 (map choices ks).

(** The number of points of a batch: one for the sequential evaluator, the batch size for the others. *)
Definition batch_of {M} (g : suggester M) : nat := match sg_ev g with ESequential => 1 | _ => sg_size g end.
(** The batch size is positive, enough design rows are drawn for it, sorting sorts, and Thompson sampling scores every row. *)
Definition batch_settings {M} (g : suggester M) : Prop :=
  1 <= sg_size g /\ sg_size g <= sg_ns' g /\ (forall m, argsorts (g_argsort (sg_gen g m 1))) /\ (forall m V s, sg_ts g m V = Ok s -> length s = length V).
