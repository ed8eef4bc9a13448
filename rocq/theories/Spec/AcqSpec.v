(** Assumptions on surrogates and batch points used in the statements about acquisition functions, and concrete instances of
    them.  Vocabulary: Spec/RSpec.v. *)
From Coq Require Import Reals Lra List.
From Coquelicot Require Import Coquelicot.
From Verif.Spec Require Import RSpec.
From Verif.Model Require Import AcqR.
Import ListNotations.
Local Open Scope R_scope.

(** The surrogate's predict_withGradients agrees with its predict at [x], and its gradients are gradients. *)
Definition honest (M : model) (x : pt) : Prop :=
  exists dm ds, predict_withGradients M x = (fst (predict M x), snd (predict M x), dm, ds) /\
    gradient (fun y => fst (predict M y)) x dm /\ gradient (fun y => snd (predict M y)) x ds.
(** A GPy model whose mean and variance have the gradients it says, with a variance above 1e-10. *)
Definition smooth (x : pt) (g : gpy) : Prop :=
  gradient (g_mean g) x (g_dmean g x) /\ gradient (g_var g) x (g_dvar g x) /\ / 10 ^ 10 < g_var g x.
(** A batch point (centre, radius, width) at which the penaliser is differentiable and not cut off. *)
Definition regular (x : pt) (h : pt * R * R) : Prop :=
  let '(x0, r, s) := h in
  length x0 = length x /\ 0 < s /\ distance x x0 <> 0 /\ / 10 ^ 50 <= cdf ((distance x x0 - r) / s).
Definition centre (h : pt * R * R) : pt := fst (fst h).

(** A concrete GPy model in one variable: mean x, variance 1, one training input 0. *)
Definition line : gpy := mk_gpy (fun x => coord x 0) (fun _ => 1) (fun _ => [1]) (fun _ => [0]) [[0]].
(** A constant wrapped acquisition. *)
Definition flat : under := mk_under (fun _ => -1) (fun x => map (fun _ => 0) x).
