(** What "a value of a variable", "a point of the design space", "nearest" and "well-formed description" mean.
    Independent of the algorithms in Model/Space.v; only the data types are shared. *)
From Coq Require Import String List ZArith QArith Qcanon Bool.
From Verif.Model Require Import Py Space.
Import ListNotations.
Local Open Scope nat_scope.

(** The kinds of the single-dimension variables of a space, in order. *)
Definition kinds (sp : space) : list kind := map x_kind (sp_xvars sp).

Definition bandit_free (ks : list kind) : Prop := Forall (fun k => is_bandit k = false) ks.

(** Number of model columns of a variable. *)
Definition width (k : kind) : nat :=
  match k with
  | KCont _ _ => 1
  | KDisc _ => 1
  | KCat cats => length cats
  | KBandit _ arms => match arms with a :: _ => length a | [] => 0 end
  end.
Definition total_width (ks : list kind) : nat := list_sum (map width ks).

(** Domains that make sense: non-empty, bounds ordered, arms of equal length. *)
Definition wf_kind (k : kind) : Prop :=
  match k with
  | KCont lo hi => (lo <= hi)%Qc
  | KDisc vals => vals <> []
  | KCat cats => cats <> []
  | KBandit isarr arms => isarr = true /\ arms <> [] /\ forall a b, In a arms -> In b arms -> length a = length b
  end.

(** A value the user may pass for a (non-bandit) variable: anything for a number, an integer 0..k-1 for a
    categorical variable with k categories. *)
Definition encodable (k : kind) (x : Qc) : Prop :=
  match k with
  | KCont _ _ | KDisc _ => True
  | KCat cats => exists n, n < length cats /\ x = nat2q n
  | KBandit _ _ => False
  end.

(** A value inside the domain of a (non-bandit) variable. *)
Definition valid_value (k : kind) (x : Qc) : Prop :=
  match k with
  | KCont lo hi => (lo <= x)%Qc /\ (x <= hi)%Qc
  | KDisc vals => In x vals
  | KCat cats => exists n, n < length cats /\ x = nat2q n
  | KBandit _ _ => False
  end.

(** A value literally listed in the user's domain. *)
Definition user_value (k : kind) (x : Qc) : Prop :=
  match k with
  | KCont lo hi => (lo <= x)%Qc /\ (x <= hi)%Qc
  | KDisc vals => In x vals
  | KCat cats => In x cats
  | KBandit _ _ => False
  end.

(** Block [b] is the [i]-th unit vector of length [n]. *)
Definition one_hot (n i : nat) (b : vec) : Prop :=
  length b = n /\ i < n /\
  forall j, j < n -> nth_error b j = Some (if Nat.eqb j i then 1%Qc else 0%Qc).

(** The columns of a variable hold an encoding of some value (numbers unrestricted). *)
Definition encoding_block (k : kind) (b : vec) : Prop :=
  match k with
  | KCont _ _ | KDisc _ => length b = 1
  | KCat cats => exists i, one_hot (length cats) i b
  | KBandit _ _ => False
  end.

(** The columns of a variable hold a value of its domain. *)
Definition valid_block (k : kind) (b : vec) : Prop :=
  match k with
  | KCont lo hi => exists x, b = [x] /\ (lo <= x)%Qc /\ (x <= hi)%Qc
  | KDisc vals => exists x, b = [x] /\ In x vals
  | KCat cats => exists i, one_hot (length cats) i b
  | KBandit _ arms => In b arms
  end.

(** A model-space row is the concatenation of one block per variable. *)
Inductive blocks (P : kind -> vec -> Prop) : list kind -> vec -> Prop :=
| blocks_nil : blocks P [] []
| blocks_cons k ks b r : P k b -> blocks P ks r -> blocks P (k :: ks) (b ++ r).

(** A row that encodes some configuration / a point of the (encoded) design space. *)
Definition encoding_row := blocks encoding_block.
Definition design_point := blocks valid_block.

(** Squared Euclidean distance of two vectors of equal length. *)
Fixpoint dist2 (a b : vec) : Qc :=
  match a, b with
  | x :: a', y :: b' => ((x - y) * (x - y) + dist2 a' b')%Qc
  | _, _ => 0%Qc
  end.

(** ---- descriptions ---- *)
Definition known_types : list string := ["continuous"; "discrete"; "bandit"; "categorical"]%string.
Definition descr_type (d : descr) : string := match d_type d with Some t => t | None => "continuous"%string end.

(** The domain has the Python shape its type calls for (what this model describes). *)
Definition shape_ok (d : descr) : Prop :=
  forall dom, d_domain d = Some dom ->
    (descr_type d = "continuous"%string -> exists lo hi, dom = RNums [lo; hi]) /\
    (descr_type d = "discrete"%string -> exists l, dom = RNums l) /\
    (descr_type d = "categorical"%string -> exists l, dom = RNums l) /\
    (descr_type d = "bandit"%string -> exists isarr a arms, dom = RRows isarr (a :: arms)).

Definition ragged (d : descr) : Prop :=
  descr_type d = "bandit"%string /\
  exists isarr arms a b, d_domain d = Some (RRows isarr arms) /\ In a arms /\ In b arms /\ length a <> length b.

Definition is_bandit_descr (d : descr) : Prop := descr_type d = "bandit"%string.

(** The description errors the documentation mentions. *)
Definition malformed (ds : list descr) : Prop :=
  (exists d, In d ds /\ (d_domain d = None \/ ~ In (descr_type d) known_types \/ ragged d)) \/
  ((exists d, In d ds /\ is_bandit_descr d) /\ (exists d, In d ds /\ ~ is_bandit_descr d)).

(** A descriptor with a 'dimensionality' of at least one but without a 'name'. *)
Definition unnamed_with_dim (ds : list descr) : Prop :=
  exists d n, In d ds /\ d_name d = None /\ d_dim d = Some (S n).
(** A bandit whose arms are a plain list instead of a numpy array. *)
Definition list_bandit (ds : list descr) : Prop :=
  exists d rows, In d ds /\ is_bandit_descr d /\ d_domain d = Some (RRows false rows).

(** The domain a descriptor denotes. *)
Definition denotes (d : descr) (k : kind) : Prop :=
  match k with
  | KCont lo hi => descr_type d = "continuous"%string /\ d_domain d = Some (RNums [lo; hi])
  | KDisc vals => descr_type d = "discrete"%string /\ d_domain d = Some (RNums vals)
  | KCat cats => descr_type d = "categorical"%string /\ d_domain d = Some (RNums cats)
  | KBandit isarr arms => descr_type d = "bandit"%string /\ d_domain d = Some (RRows isarr arms)
  end.

(** Name of the descriptor at position [i] and names of its single dimensions. *)
Definition descr_name (i : nat) (d : descr) : string :=
  match d_name d with Some n => n | None => ("var_" ++ str_nat i)%string end.
Definition descr_dim (d : descr) : nat := match d_dim d with Some n => n | None => 1 end.
Definition dim_names (i : nat) (d : descr) : list string :=
  match descr_dim d with
  | 1 => [descr_name i d]
  | n => map (fun j => (descr_name i d ++ "_" ++ str_nat (S j))%string) (seq 0 n)
  end.

(** The variables a description stands for: per descriptor, one variable per dimension (one per bandit). *)
Inductive expands : nat -> list descr -> list (string * kind) -> Prop :=
| expands_nil i : expands i [] []
| expands_num i d ds k vs :
    denotes d k -> is_bandit k = false -> expands (S i) ds vs ->
    expands i (d :: ds) (map (fun n => (n, k)) (dim_names i d) ++ vs)
| expands_bandit i d ds k vs :
    denotes d k -> is_bandit k = true -> expands (S i) ds vs ->
    expands i (d :: ds) ((descr_name i d, k) :: vs).

(** ---- constraints ---- *)
(** The function a constraint dictionary stands for: the one under the old key 'constrain' if present, else the
    one under 'constraint'. *)
Definition denotes_constr (c : constr) (f : vec -> res Qc) : Prop :=
  match c_constrain c with Some g => f = g | None => c_constraint c = Some f end.
Definition constraint_value (c : constr) (x : vec) (v : Qc) : Prop := exists f, denotes_constr c f /\ f x = Ok v.
Definition satisfies (c : constr) (x : vec) : Prop := exists v, constraint_value c x v /\ (v <= 0)%Qc.
Definition violates (c : constr) (x : vec) : Prop := exists v, constraint_value c x v /\ (0 < v)%Qc.

(** Spaces the library can round in: no bandit (and at least one variable), or exactly one bandit. *)
Definition roundable (ks : list kind) : Prop :=
  (bandit_free ks /\ ks <> []) \/ exists isarr arms, ks = [KBandit isarr arms].
