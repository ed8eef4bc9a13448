(** predict_covariance. *)
From Coq Require Import Reals Lra Lia List Bool.
From Coquelicot Require Import Coquelicot.
From Verif.Model Require Import AcqR.
From Verif.Spec Require Import RSpec CovSpec.
Import ListNotations.
Local Open Scope R_scope.

Lemma clip_id v : clip v = v <-> e10 <= v.
Proof. unfold clip. destruct (Rlt_dec v e10); split; lra. Qed.
Lemma clip_max v : clip v = Rmax e10 v.
Proof. unfold clip, Rmax. destruct (Rlt_dec v e10), (Rle_dec e10 v); lra. Qed.
Theorem cov_right n C : (forall i j, (i < n)%nat -> (j < n)%nat -> gp_predict_covariance C i j = C i j) <-> (forall i j, (i < n)%nat -> (j < n)%nat -> e10 <= C i j).
Proof. unfold gp_predict_covariance. split; intros H i j I J; [apply clip_id|apply clip_id]; auto. Qed.
Theorem cov_entries C i j : gp_predict_covariance C i j = Rmax (/ 10 ^ 10) (C i j).
Proof. unfold gp_predict_covariance. rewrite clip_max. unfold e10. reflexivity. Qed.
Theorem cov_symmetric C : (forall i j, C i j = C j i) -> forall i j, gp_predict_covariance C i j = gp_predict_covariance C j i.
Proof. intros H i j. unfold gp_predict_covariance. now rewrite H. Qed.

(** A Gram matrix of four unit vectors in the plane, the last two more than a right angle from the first. *)
Definition gx (i : nat) : R := match i with 0%nat => 1 | 1%nat => 4 / 5 | 2%nat => 7 / 25 | _ => - 44 / 125 end.
Definition gy (i : nat) : R := match i with 0%nat => 0 | 1%nat => 3 / 5 | 2%nat => 24 / 25 | _ => 117 / 125 end.
Definition gram (i j : nat) : R := gx i * gx j + gy i * gy j.
Lemma sum4 f : sum_to 4 f = f 0%nat + (f 1%nat + (f 2%nat + (f 3%nat + 0))).
Proof. reflexivity. Qed.
Lemma gram_psd : psd 4 gram.
Proof.
  intros v. rewrite sum4, !sum4. unfold gram, gx, gy.
  match goal with |- 0 <= ?e => replace e with
   ((v 0%nat + 4 / 5 * v 1%nat + 7 / 25 * v 2%nat - 44 / 125 * v 3%nat) ^ 2 + (3 / 5 * v 1%nat + 24 / 25 * v 2%nat + 117 / 125 * v 3%nat) ^ 2) by field end.
  apply Rplus_le_le_0_compat; apply pow2_ge_0.
Qed.
Theorem cov_not_psd : exists C, psd 4 C /\ (forall i j, C i j = C j i) /\ (forall i, (i < 4)%nat -> C i i = 1) /\ ~ psd 4 (gp_predict_covariance C).
Proof.
  exists gram. split; [exact gram_psd|]. split; [intros; unfold gram; ring|]. split.
  - intros i L. destruct i as [|[|[|[|i]]]]; [| | | |lia]; unfold gram, gx, gy; field.
  - intros H. specialize (H (fun i => match i with 0%nat => 1 | 1%nat => - (13 / 5) | 2%nat => 13 / 5 | _ => - 1 end)).
    rewrite sum4, !sum4 in H. unfold gp_predict_covariance in H.
    assert (P : forall i j, e10 <= gram i j -> clip (gram i j) = gram i j) by (intros; now apply clip_id).
    assert (E : 0 < e10 < 1 / 100) by (unfold e10; lra).
    assert (Q : clip (gram 0 3) = e10 /\ clip (gram 3 0) = e10).
    { unfold clip. split; destruct (Rlt_dec _ _) as [|N]; try reflexivity; exfalso; apply N; unfold gram, gx, gy; lra. }
    destruct Q as [Q1 Q2]. rewrite Q1, Q2 in H.
    rewrite !P in H by (unfold gram, gx, gy; lra). unfold gram, gx, gy in H. lra.
Qed.
