(** Suggestions: what is known to the duplicate manager, the best points of a list, valid random sources. *)
From Coq Require Import String List ZArith QArith Qcanon Bool Permutation Sorting.Sorted.
From Verif.Model Require Import Py Space Design Optim.
From Verif.Spec Require Import SpaceSpec DesignSpec ContextSpec.
Import ListNotations.
Local Open Scope nat_scope.

(** The random numbers and the external unit-cube design lie in the unit interval. *)
Definition good_gen (g : gen) : Prop :=
  (forall k, unit_draws (dr_unif (g_dr g k))) /\
  Forall (Forall (fun x => (0 <= x)%Qc /\ (x <= 1)%Qc)) (g_U g).

(** Spaces and contexts suggestions can be made in: without context any space that can be sampled and rounded; with
    a context a bandit-free space of distinct variables and a context over them with values of their domains. *)
Definition good_context (sp : space) (oc : option context) : Prop :=
  match oc with
  | None => sampleable sp /\ roundable (kinds sp)
  | Some c => bandit_free (kinds sp) /\ kinds sp <> [] /\ distinct_names sp /\ is_dict c /\ names_known sp c /\
              values_ok valid_value sp c
  end.
Definition carries_opt (sp : space) (oc : option context) (row : vec) : Prop :=
  match oc with None => True | Some c => carries sp c row end.

(** ---- duplicates ---- *)
(** The user-space rows a run knows: evaluated, pending and ignored ones. *)
Definition known_to (X : mat) (pending ignored : option mat) (t : vec) : Prop :=
  In t X \/ (exists P, pending = Some P /\ In t P) \/ (exists P, ignored = Some P /\ In t P).
Definition has_nonzero (M : mat) : Prop := exists r x, In r M /\ In x r /\ x <> 0%Qc.
(** [t] is the user-space form of the model row [x]. *)
Definition user_form (sp : space) (x t : vec) : Prop := zip_inputs sp [x] = Ok [t].
(** The model row [x] is not a duplicate (there is no manager, or its user-space form is not among its points). *)
Definition unknown (odm : option dupmgr) (x : vec) : Prop :=
  match odm with
  | None => True
  | Some dm => exists t, user_form (dm_space dm) x t /\ ~ In t (dm_points dm)
  end.
(** Its user-space form can be computed. *)
Definition zippable (odm : option dupmgr) (x : vec) : Prop :=
  match odm with None => True | Some dm => exists t, user_form (dm_space dm) x t end.
(** The rows' user-space forms are pairwise different. *)
Definition distinct_rows (sp : space) (B : mat) : Prop := exists ts, Forall2 (user_form sp) B ts /\ NoDup ts.

(** ---- sorting and best elements ---- *)
Definition score_le (s : vec) (i j : nat) : Prop :=
  exists a b, nth_error s i = Some a /\ nth_error s j = Some b /\ (a <= b)%Qc.
(** [p] lists all positions of [s] in ascending order of the values there (what argsort returns). *)
Definition sorting_perm (s : vec) (p : list nat) : Prop :=
  Permutation p (seq 0 (length s)) /\ StronglySorted (score_le s) p.
Definition argsorts (f : vec -> list nat) : Prop := forall s, sorting_perm s (f s).
(** [A] are rows of [V] at different positions, in ascending order of their scores [s], and no other position has a
    smaller score. *)
Definition best_of (V : mat) (s : vec) (A : mat) : Prop :=
  exists idx, NoDup idx /\ map (nth_error V) idx = map Some A /\ StronglySorted (score_le s) idx /\
    forall i j, In i idx -> j < length s -> ~ In j idx -> score_le s i j.

(** ---- candidates ---- *)
(** [y] is what local optimization makes of the anchor [x0]: the solver, started at the free coordinates of [x0] on the
    restricted acquisition, returns [v]; [v] with the context is rounded to [r]; a duplicate [r] is replaced by [x0]. *)
Definition candidate (a : acq) (o : optname) (ext : local_opt) (odm : option dupmgr) (x0 y : vec) : Prop :=
  exists x0n v row r,
    x0_nocontext (aq_cm a) x0 = Ok x0n /\
    run_optimizer o (cm_noncontext_bounds (aq_cm a)) ext x0n (f_nc (aq_cm a) (aq_f a))
      (match aq_g a with Some h => Some (f_df_nc (aq_cm a) h) | None => None end) = Ok v /\
    expand_row (aq_cm a) v = Ok row /\ round_optimum (aq_space a) [row] = Ok [r] /\
    ((unknown odm r /\ y = r) \/ (~ unknown odm r /\ y = x0)).

(** ---- constraints under a context ---- *)
(** The entries of a user-space row that belong to variables outside the context. *)
Definition free_part (sp : space) (oc : option context) (t : vec) : vec :=
  match oc with
  | None => t
  | Some c => map snd (filter (fun p => negb (existsb (String.eqb (x_name (fst p))) (map fst c))) (combine (sp_xvars sp) t))
  end.
