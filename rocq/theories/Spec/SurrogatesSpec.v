(** What the surrogates other than GPModel should hold after updates. *)
From Coq Require Import Reals.
From Coq Require Import String List Bool Arith ZArith QArith Qcanon.
From Verif.Model Require Import Py Space Objective Models AcqR Surrogates.
Import ListNotations.
Local Open Scope nat_scope.

Definition warped_updates {K N W} (g : warped K N W) (ds : list data) := fold_left warped_update ds g.
Definition iwarped_updates {K N W} (g : iwarped K N W) (ds : list data) := fold_left iwarped_update ds g.
(** The same surrogate with another noise variance and another number of restarts. *)
Definition warped_options {K N W} (n : option N) (r : nat) (g : warped K N W) : warped K N W :=
  mk_warped (wm_kernel g) n (wm_exact g) (wm_optimizer g) (wm_iters g) r (wm_fun g) (wm_terms g) (wm_verbose g) (wm_model g).
Definition iwarped_noise {K N W} (n : option N) (g : iwarped K N W) : iwarped K N W :=
  mk_iwarped (im_indices g) (im_fun g) (im_kernel g) n (im_exact g) (im_optimizer g) (im_iters g) (im_restarts g) (im_verbose g) (im_ARD g) (im_model g).
(** Rows with [n] coordinates. *)
Definition width (n : nat) (X : mat) : Prop := X <> [] /\ Forall (fun r => List.length r = n) X.
(** [lo] and [hi] are the bounds of the columns of [X]: every row lies between them and every bound is attained. *)
Definition inside (lo hi r : vec) : Prop := forall j l h v, nth_error lo j = Some l -> nth_error hi j = Some h -> nth_error r j = Some v -> (l <= v)%Qc /\ (v <= h)%Qc.
Definition attained (b : vec) (X : mat) : Prop := forall j v, nth_error b j = Some v -> exists r, In r X /\ nth_error r j = Some v.
Definition bounds_of (n : nat) (X : mat) (lo hi : vec) : Prop :=
  List.length lo = n /\ List.length hi = n /\ Forall (inside lo hi) X /\ attained lo X /\ attained hi X.
(** The optimisation one update of a GPModel runs. *)
Definition one_call (opt : string) (iters restarts : nat) : list optcall :=
  match iters, restarts with O, _ => [] | _, 1 => [Plain opt iters] | _, _ => [Restarts restarts opt iters] end.
(** Updates of a model with MCMC samples, as long as they succeed. *)
Section M.
Context {K N P Rnd : Type}.
Variables (init : kernel K -> option N -> data -> list P) (optimise : data -> list P -> list P) (perturb : Rnd -> list P -> list P)
  (hmc : Rnd -> data -> Qc -> nat -> nat -> list P -> list (list P) * list P).
Inductive mcmc_updates : mcmc K N P -> list (Rnd * data) -> mcmc K N P -> Prop :=
  | mu_end : forall g, mcmc_updates g [] g
  | mu_more : forall g z d g1 l g2, mcmc_update init optimise perturb hmc g z d = (g1, Ok tt) -> mcmc_updates g1 l g2 -> mcmc_updates g ((z, d) :: l) g2.
(** The parameters from which an update with data of [n] columns starts: those of the model, or those of a new one. *)
Definition params_before (g : mcmc K N P) (n : nat) (d : data) : list P :=
  match mm_model g with
  | Some m => m_params m
  | None => init (match mm_kernel g with Some k => k | None => RBF n end) (mm_noise g) d
  end.
End M.
(** Updates of a forest. *)
Definition rf_updates (fit : list pt -> list R -> list tree) (refit : list tree -> list pt -> list R -> list tree) (g : rfmodel) (ds : list (list pt * list R)) : rfmodel :=
  fold_left (rf_update fit refit) ds g.
