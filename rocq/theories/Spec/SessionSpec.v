(** Splitting a run and evaluating the objective outside of GPyOpt. *)
From Coq Require Import String List ZArith QArith Qcanon Bool.
From Verif.Model Require Import Py Space Design Optim Objective BO Session.
Import ListNotations.
Local Open Scope nat_scope.

(** Fitting the surrogate again to the data it was just fitted to changes nothing. *)
Definition refit_stable {M} (E : env M) : Prop :=
  forall m X Y m', e_update E m X Y = (m', None) -> e_update E m' X Y = (m', None).
(** Fitting never fails for numerical reasons. *)
Definition fits {M} (E : env M) : Prop := forall m X Y, snd (e_update E m X Y) <> Some LinAlgError.
(** What a surrogate becomes depends on the data only, not on what it was fitted to before. *)
Definition memoryless {M} (E : env M) (renew : M -> M) : Prop := forall m X Y, e_update E (renew m) X Y = e_update E m X Y.

(** The rows that are being evaluated are not all zero: np.any(pending_X), duplicate_manager.py:24, is how the code asks
    whether there are any. *)
Definition nonzero_row (x : vec) : Prop := exists v, In v x /\ v <> 0%Qc.
(** No row of the list other than one of zeros stands at two places. *)
Definition once (L : mat) : Prop := forall i j t, nth_error L i = Some t -> nth_error L j = Some t -> nonzero_row t -> i = j.
(** The contexts a schedule asks with. *)
Definition asks_with (P : option (list (string * Qc)) -> Prop) (o : sop) : Prop := match o with Ask ctx _ => P ctx | Tell _ _ => True end.
