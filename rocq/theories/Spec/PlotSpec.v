(** Vocabulary for the statements about plots. *)
From Coq Require Import List QArith Qcanon Reals.
From Verif.Model Require Import Py.
Import ListNotations.

(** The square of the Euclidean distance of two rows. *)
Definition distance2 (a b : vec) : Qc := qsum (map (fun p => ((fst p - snd p) * (fst p - snd p))%Qc) (combine a b)).

Local Open Scope R_scope.
(** The least and the greatest entry. *)
Definition least (m : R) (l : list R) : Prop := In m l /\ forall y, In y l -> m <= y.
Definition greatest (m : R) (l : list R) : Prop := In m l /\ forall y, In y l -> y <= m.
(** The band of 1.96 standard deviations around the means. *)
Definition band_low (m v : list R) : list R := map (fun p => fst p - 196 / 100 * sqrt (snd p)) (combine m v).
Definition band_high (m v : list R) : list R := map (fun p => fst p + 196 / 100 * sqrt (snd p)) (combine m v).
(** All points of a curve are between two heights. *)
Definition inside (lo hi : R) (heights : list (option R)) : Prop := forall h, In (Some h) heights -> lo <= h <= hi.
(** The k-th of 200 equally spaced values from bound to bound. *)
Definition tick (b : R * R) (k : nat) : R := fst b + INR k * ((snd b - fst b) / 199).
