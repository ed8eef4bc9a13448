(** Vocabulary for the surrogate models. *)
From Coq Require Import String List Bool Arith.
From Verif.Model Require Import Py Space.
Import ListNotations.
Local Open Scope nat_scope.

(** [fills mask s p q]: q is p with the entries where the mask is true replaced by the values s, in order. *)
Inductive fills {P : Type} : list bool -> list P -> list P -> list P -> Prop :=
| fills_nil : fills [] [] [] []
| fills_free m s p q v x : fills m s p q -> fills (true :: m) (v :: s) (x :: p) (v :: q)
| fills_fixed m s p q x : fills m s p q -> fills (false :: m) s (x :: p) (x :: q).
(** The parameter vector a sample stands for: all parameters, or only those that are not fixed. *)
Definition used {P : Type} (fixes : option (list bool)) (s p q : list P) : Prop :=
  match fixes with None => q = s /\ length s = length p | Some mask => fills mask s p q end.

(** A variable with numbers as values that the documentation says is warped: continuous or discrete. *)
Definition numerical (v : xvar) : Prop := match x_kind v with KCont _ _ | KDisc _ => True | _ => False end.
(** A variable that takes more or fewer than one column in the model: categorical with a number of categories other than 1. *)
Definition spread (v : xvar) : Prop := match x_kind v with KCat cats => length cats <> 1 | _ => False end.
Definition has_categories (v : xvar) : Prop := match x_kind v with KCat cats => cats <> [] | _ => True end.
(** [j] is a model column of a numerical variable of the space. *)
Definition numerical_column (sp : space) (j : nat) : Prop := exists v, In v (sp_xvars sp) /\ numerical v /\ In j (x_idx_mod v).
(** No categorical variable (with other than one category) before a numerical one. *)
Definition numerical_first (sp : space) : Prop :=
  forall a v b, sp_xvars sp = a ++ v :: b -> spread v -> forall w, In w b -> ~ numerical w.

(** The GPy model behind a GPModel keeps what the user asked for. *)
From Verif.Model Require Import Models.
Section GP.
Context {K N F D : Type}.
(** The state after any sequence of updates with the data [ds]. *)
Definition updates (g : gpmodel K N F D) (ds : list D) : gpmodel K N F D := fold_left updateModel ds g.
(** The optimisation one update has to run. *)
Definition one_opt (g : gpmodel K N F D) : list optcall :=
  if Nat.ltb 0 (gp_iters g) then [if Nat.eqb (gp_restarts g) 1 then Plain (gp_optimizer g) (gp_iters g) else Restarts (gp_restarts g) (gp_optimizer g) (gp_iters g)] else [].
(** The kernel the user supplied, or Matern52 for the first data. *)
Definition first_kernel (g : gpmodel K N F D) (d : D) : kern K D := match gp_kernel g with Some k => k | None => Matern52 d (gp_ARD g) end.
Definition same_settings (g g' : gpmodel K N F D) : Prop :=
  gp_noise g' = gp_noise g /\ gp_exact g' = gp_exact g /\ gp_optimizer g' = gp_optimizer g /\ gp_iters g' = gp_iters g /\ gp_restarts g' = gp_restarts g /\
  gp_sparse g' = gp_sparse g /\ gp_inducing g' = gp_inducing g /\ gp_verbose g' = gp_verbose g /\ gp_ARD g' = gp_ARD g /\ gp_meanf g' = gp_meanf g.
(** Two GPy models of the same kind: both sparse with as many inducing points or both not, the same mean function, noise
    variance and noise constraint. *)
Definition same_gp (m m' : gpy_model K N F D) : Prop :=
  b_inducing m' = b_inducing m /\ b_mean m' = b_mean m /\ b_noise m' = b_noise m /\ b_exact m' = b_exact m.
End GP.
