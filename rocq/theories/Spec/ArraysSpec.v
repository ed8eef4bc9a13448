(** Acquisitions on many locations at once. *)
From Coq Require Import Reals List Bool Arith Permutation Sorted.
From Verif.Model Require Import Py AcqR Arrays.
Import ListNotations.
Local Open Scope R_scope.

(** An n x 1 array with one value per location, an n x d array with one gradient per location. *)
Definition per_row (v : pt -> R) (X : list pt) (a : nd) : Prop := a = M2 1 (map (fun x => [v x]) X).
Definition per_row_grad (d : nat) (v : pt -> pt) (X : list pt) (a : nd) : Prop := a = M2 d (map v X).
(** The call returns such arrays. *)
Definition answers (v : pt -> R) (X : list pt) (r : res nd) : Prop := exists a, r = Ok a /\ per_row v X a.
Definition answers_grad (d : nat) (v : pt -> R * pt) (X : list pt) (r : res (nd * nd)) : Prop :=
  exists a g, r = Ok (a, g) /\ per_row (fun x => fst (v x)) X a /\ per_row_grad d (fun x => snd (v x)) X g.
(** The gradients of the surrogate have [d] entries. *)
Definition gradients_have (M : model) (d : nat) (X : list pt) : Prop := forall x, In x X ->
  forall m s dm ds, predict_withGradients M x = (m, s, dm, ds) -> length dm = d /\ length ds = d.
(** A cost function that answers in the documented shape. *)
Definition column_cost (c : cost) (d : nat) (cx : cost_arr) (X : list pt) : Prop :=
  per_row (fun x => fst (c x)) X (fst (cx X)) /\ per_row_grad d (fun x => snd (c x)) X (snd (cx X)) /\ forall x, In x X -> length (snd (c x)) = d.
(** A cost function that answers with an array of shape (n,). *)
Definition flat_cost (k : pt -> R) (cx : cost_arr) (X : list pt) : Prop := fst (cx X) = V1 (map k X).
(** np.argsort: the positions, in an order that sorts the scores. *)
Definition sorts (argsort : list R -> list nat) : Prop := forall s, Permutation (argsort s) (seq 0 (length s)) /\
  StronglySorted (fun i j => nth i s 0 <= nth j s 0) (argsort s).
