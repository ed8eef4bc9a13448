(** Initial designs: what a valid design, a lattice and a stratified design are. *)
From Coq Require Import String List ZArith QArith Qcanon Bool.
From Verif.Model Require Import Py Space Design.
From Verif.Spec Require Import SpaceSpec.
Import ListNotations.
Local Open Scope nat_scope.

(** A design row holds, per variable, a value listed in (or inside the interval of) its domain; a bandit
    contributes one of its arms. *)
Definition user_block (k : kind) (b : vec) : Prop :=
  match k with
  | KBandit _ arms => In b arms
  | _ => exists x, b = [x] /\ user_value k x
  end.
Definition design_row := blocks user_block.

(** The random numbers are uniforms of the unit interval. *)
Definition unit_draws (u : nat -> nat -> Qc) : Prop := forall k i, (0 <= u k i)%Qc /\ (u k i <= 1)%Qc.

(** A row satisfies every constraint of the list. *)
Definition feasible (cs : list constr) (x : vec) : Prop := forall c, In c cs -> satisfies c x.

(** [l'] lists, in order, exactly the elements of [l] that satisfy [P]. *)
Inductive selects {A} (P : A -> Prop) : list A -> list A -> Prop :=
| selects_nil : selects P [] []
| selects_take a l l' : P a -> selects P l l' -> selects P (a :: l) (a :: l')
| selects_skip a l l' : ~ P a -> selects P l l' -> selects P (a :: l) l'.

(** Point [j] of [r] equally spaced points from [lo] to [hi]. *)
Definition grid_value (r : nat) (b : Qc * Qc) (j : nat) : Qc :=
  (fst b + nat2q j * ((snd b - fst b) / nat2q (r - 1)))%Qc.
(** A point of the product lattice with [r] points per dimension over the box [bs]. *)
Definition lattice_point (r : nat) (bs : list (Qc * Qc)) (x : vec) : Prop :=
  exists js, length js = length bs /\ Forall (fun j => j < r) js /\
    x = map (fun '(b, j) => grid_value r b j) (combine bs js).
Definition in_box (bs : list (Qc * Qc)) (x : vec) : Prop :=
  Forall2 (fun y b => (fst b <= y)%Qc /\ (y <= snd b)%Qc) x bs.
Definition corner (bs : list (Qc * Qc)) (x : vec) : Prop :=
  Forall2 (fun y b => y = fst b \/ y = snd b) x bs.

(** Coordinate [k] of the rows hits each of the [n] equal strata of [lo,hi) exactly once:
    stratum j is visited by one and only one row. *)
Definition stratum (lo hi : Qc) (n j : nat) (x : Qc) : Prop :=
  (lo + nat2q j * ((hi - lo) / nat2q n) <= x)%Qc /\ (x < lo + nat2q (S j) * ((hi - lo) / nat2q n))%Qc.
Definition stratified (lo hi : Qc) (n : nat) (xs : vec) : Prop :=
  forall j, j < n -> exists i, (exists x, nth_error xs i = Some x /\ stratum lo hi n j x) /\
    forall i' x', nth_error xs i' = Some x' -> stratum lo hi n j x' -> i' = i.
Definition column (k : nat) (M : mat) : list (option Qc) := map (fun r => nth_error r k) M.

(** Spaces whose designs can be drawn: no bandit, or one bandit whose dimensionality attribute is its number of
    columns (the default). *)
Definition sampleable (sp : space) : Prop :=
  bandit_free (kinds sp) \/ exists isarr arms, kinds sp = [KBandit isarr arms] /\ sp_dim sp = total_width (kinds sp).

(** [Ds] are the unconstrained designs drawn in the first [m] rounds of the generator [dr]. *)
Definition drawn_upto (sp : space) (dr : nat -> draws) (n m : nat) (Ds : list mat) : Prop :=
  Forall2 (fun k D => get_samples_without_constraints sp (dr k) n = Ok D) (seq 0 m) Ds.

(** Every constraint evaluates (does not raise) on every row. *)
Definition evaluates (cs : list constr) (X : mat) : Prop := forall c x, In c cs -> In x X -> exists v, constraint_value c x v.

(** A row of a unit-cube design with [d] columns. *)
Definition unit_row (d : nat) (u : vec) : Prop := length u = d /\ Forall (fun x => (0 <= x)%Qc /\ (x <= 1)%Qc) u.
