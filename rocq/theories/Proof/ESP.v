(** Entropy search. *)
From Coq Require Import Reals Lra Psatz List Lia Bool Arith.
From Coquelicot Require Import Coquelicot.
From Verif.Model Require Import AcqR ES.
From Verif.Spec Require Import RSpec.
From Verif.Proof Require Import Gauss GaussP AcqP AcqM.
Import ListNotations.
Local Open Scope R_scope.

(** ---- sums *)
Lemma rsum_ext n f g : (forall i, (i < n)%nat -> f i = g i) -> rsum n f = rsum n g.
Proof. induction n as [|n IH]; intros H; cbn [rsum]; [reflexivity|]. rewrite IH by (intros; apply H; lia). rewrite H by lia. reflexivity. Qed.
Lemma rsum_S n f : rsum (S n) f = rsum n f + f n. Proof. reflexivity. Qed.
Lemma rsum_scal n c f : rsum n (fun i => c * f i) = c * rsum n f.
Proof. induction n as [|n IH]; cbn [rsum]; [ring|]. rewrite IH. ring. Qed.
Lemma rsum_plus n f g : rsum n (fun i => f i + g i) = rsum n f + rsum n g.
Proof. induction n as [|n IH]; cbn [rsum]; [ring|]. rewrite IH. ring. Qed.
Lemma rsum_minus n f g : rsum n (fun i => f i - g i) = rsum n f - rsum n g.
Proof. induction n as [|n IH]; cbn [rsum]; [ring|]. rewrite IH. ring. Qed.
Lemma rsum_zero n : rsum n (fun _ => 0) = 0.
Proof. induction n as [|n IH]; cbn [rsum]; [reflexivity|]. rewrite IH. ring. Qed.
Lemma rsum_pos n f : (0 < n)%nat -> (forall i, (i < n)%nat -> 0 < f i) -> 0 < rsum n f.
Proof.
  induction n as [|n IH]; intros N H; [lia|]. cbn [rsum]. destruct n as [|n]; [cbn [rsum]; specialize (H 0%nat ltac:(lia)); lra|].
  assert (0 < rsum (S n) f) by (apply IH; [lia|intros; apply H; lia]). specialize (H (S n) ltac:(lia)). lra.
Qed.
Lemma sum_to_rsum n f : sum_to n f = rsum n f.
Proof.
  unfold sum_to. induction n as [|n IH]; [reflexivity|]. rewrite seq_S, map_app. cbn [rsum]. rewrite <- IH. cbn [map].
  unfold sumR. rewrite fold_right_app. cbn [fold_right plus].
  assert (P : forall l a, fold_right Rplus a l = fold_right Rplus 0 l + a) by (induction l as [|x l IHl]; intros a; cbn; [ring|rewrite IHl; ring]).
  rewrite P. change (0 + n)%nat with n. ring.
Qed.
Lemma rsum_swap n m (f : nat -> nat -> R) : rsum n (fun i => rsum m (fun j => f i j)) = rsum m (fun j => rsum n (fun i => f i j)).
Proof.
  induction n as [|n IH]; cbn [rsum]; [symmetry; apply rsum_zero|]. rewrite IH. rewrite <- rsum_plus. reflexivity.
Qed.
Lemma d_rsum n (f : nat -> R -> R) (d : nat -> R) x : (forall i, (i < n)%nat -> is_derive (f i) x (d i)) ->
  is_derive (fun t => rsum n (fun i => f i t)) x (rsum n d).
Proof.
  induction n as [|n IH]; intros H; cbn [rsum]; [apply d_const|]. apply d_plus; [apply IH; intros; apply H; lia|apply H; lia].
Qed.

(** ---- renormalisation *)
Lemma exp_sum_pos D l : (0 < D)%nat -> 0 < rsum D (fun k => exp (l k)).
Proof. intros H. apply rsum_pos; [exact H|]. intros. apply exp_pos. Qed.
Lemma log_sum_exp D l : (0 < D)%nat -> log_sum D l = ln (rsum D (fun k => exp (l k))).
Proof.
  intros H. unfold log_sum. set (mx := rmax (D - 1) l). cbv zeta.
  assert (E : rsum D (fun k => exp (l k)) = exp mx * rsum D (fun k => exp (l k - mx))).
  { rewrite <- rsum_scal. apply rsum_ext. intros k _. rewrite <- exp_plus. f_equal. ring. }
  rewrite E, ln_mult; [rewrite ln_exp; reflexivity|apply exp_pos|]. apply rsum_pos; [exact H|]. intros. apply exp_pos.
Qed.
Lemma renormalised_exp D l k : (0 < D)%nat -> exp (renormalised D l k) = exp (l k) / rsum D (fun k => exp (l k)).
Proof.
  intros H. unfold renormalised. rewrite log_sum_exp by exact H. unfold Rminus. rewrite exp_plus, exp_Ropp, exp_ln by now apply exp_sum_pos. reflexivity.
Qed.
Theorem normalised D l : (0 < D)%nat -> sum_to D (fun k => exp (renormalised D l k)) = 1.
Proof.
  intros H. rewrite sum_to_rsum. rewrite (rsum_ext _ _ (fun k => / rsum D (fun k => exp (l k)) * exp (l k))).
  - rewrite rsum_scal. apply Rinv_l. apply Rgt_not_eq. now apply exp_sum_pos.
  - intros k _. rewrite renormalised_exp by exact H. unfold Rdiv. ring.
Qed.
Theorem normalised_ratio D l i j : (0 < D)%nat -> exp (renormalised D l i) * exp (l j) = exp (renormalised D l j) * exp (l i).
Proof. intros H. rewrite !renormalised_exp by exact H. unfold Rdiv. ring. Qed.

(** ---- derivatives of the renormalised values *)
Lemma upd_self (v : nat -> R) i k : upd v i (v i) k = v k.
Proof. unfold upd. destruct (Nat.eqb_spec k i); [now subst|reflexivity]. Qed.
Lemma Zvec_spec D n l J i : (i < n)%nat -> Zvec D n l J i = rsum D (fun k => exp (l k) * J k i) / rsum D (fun k => exp (l k)).
Proof.
  intros H. unfold Zvec. f_equal. apply rsum_ext. intros k _. unfold rot90_3, rot90_1. do 2 f_equal. lia.
Qed.
Section Renorm.
Variables (D n : nat) (F : vect -> vect) (v : vect).
Hypothesis DP : (0 < D)%nat.
(** [F] reads its argument coordinatewise: it may be evaluated at the point itself. *)
Hypothesis FX : forall i k, F (upd v i (v i)) k = F v k.
Lemma log_sum_derive (J : matr) i : (i < n)%nat -> (forall k, (k < D)%nat -> slope (fun w => F w k) v i (J k i)) ->
  is_derive (fun t => log_sum D (F (upd v i t))) (v i) (Zvec D n (F v) J i).
Proof.
  intros I H. rewrite Zvec_spec by exact I.
  apply (is_derive_ext (fun t => ln (rsum D (fun k => exp (F (upd v i t) k))))); [intros t; symmetry; now apply log_sum_exp|].
  eapply d_eq.
  - apply (d_comp ln (fun t => rsum D (fun k => exp (F (upd v i t) k)))).
    + apply d_ln. now apply exp_sum_pos.
    + apply (d_rsum D (fun k t => exp (F (upd v i t) k)) (fun k => exp (F v k) * J k i)). intros k K. eapply d_eq.
      * apply (d_comp exp (fun t => F (upd v i t) k)); [apply d_exp|exact (H k K)].
      * cbv beta. rewrite FX. reflexivity.
  - cbv beta. rewrite (rsum_ext _ (fun k => exp (F (upd v i (v i)) k)) (fun k => exp (F v k))) by (intros; now rewrite FX). unfold Rdiv. ring.
Qed.
Theorem adjusted_slope (J : matr) : (forall k i, (k < D)%nat -> (i < n)%nat -> slope (fun w => F w k) v i (J k i)) ->
  forall k i, (k < D)%nat -> (i < n)%nat -> slope (fun w => renormalised D (F w) k) v i (adjusted D n (F v) J k i).
Proof.
  intros H k i K I. unfold slope, renormalised, adjusted. apply d_minus; [now apply H|]. apply (log_sum_derive J i I). intros; now apply H.
Qed.
End Renorm.

(** The second derivatives: what they are, and what the code returns. *)
Definition second_true D l (J : matr) (H : nat -> matr) k i j : R :=
  H k i j - rsum D (fun m => (H m i j + J m i * J m j) * exp (l m)) / rsum D (fun m => exp (l m)) + Zvec D D l J i * Zvec D D l J j.
Theorem second_slope D (F : vect -> vect) v (J : vect -> matr) (H : nat -> matr) : (0 < D)%nat ->
  (forall i k, F (upd v i (v i)) k = F v k) -> (forall i k j, J (upd v i (v i)) k j = J v k j) ->
  (forall k i, (k < D)%nat -> (i < D)%nat -> slope (fun w => F w k) v i (J v k i)) ->
  (forall k i j, (k < D)%nat -> (i < D)%nat -> (j < D)%nat -> slope (fun w => J w k i) v j (H k i j)) ->
  forall k i j, (k < D)%nat -> (i < D)%nat -> (j < D)%nat ->
    slope (fun w => adjusted D D (F w) (J w) k i) v j (second_true D (F v) (J v) H k i j).
Proof.
  intros DP FX JX HJ HH k i j K I Jj. unfold slope, adjusted.
  set (Z := rsum D (fun m => exp (F v m))). pose proof (exp_sum_pos D (F v) DP) as ZP. fold Z in ZP.
  apply (is_derive_ext (fun t => J (upd v j t) k i - rsum D (fun m => exp (F (upd v j t) m) * J (upd v j t) m i) / rsum D (fun m => exp (F (upd v j t) m)))).
  { intros t. rewrite Zvec_spec by exact I. reflexivity. }
  assert (E1 : forall m, (m < D)%nat -> is_derive (fun t => exp (F (upd v j t) m)) (v j) (exp (F v m) * J v m j)).
  { intros m M. eapply d_eq; [apply (d_comp exp (fun t => F (upd v j t) m)); [apply d_exp|exact (HJ m j M Jj)]|]. cbv beta. now rewrite FX. }
  eapply d_eq.
  - apply d_minus; [exact (HH k i j K I Jj)|]. apply d_div.
    + apply (d_rsum D (fun m t => exp (F (upd v j t) m) * J (upd v j t) m i) (fun m => exp (F v m) * J v m j * J v m i + exp (F v m) * H m i j)).
      intros m M. eapply d_eq; [apply d_mult; [exact (E1 m M)|exact (HH m i j M I Jj)]|]. cbv beta. rewrite FX, JX. reflexivity.
    + apply (d_rsum D (fun m t => exp (F (upd v j t) m)) (fun m => exp (F v m) * J v m j)). exact E1.
    + cbv beta. rewrite (rsum_ext _ _ (fun k => exp (F v k))) by (intros; now rewrite FX). fold Z. lra.
  - cbv beta. rewrite (rsum_ext D (fun m => exp (F (upd v j (v j)) m)) (fun k => exp (F v k))) by (intros; now rewrite FX).
    rewrite (rsum_ext D (fun m => exp (F (upd v j (v j)) m) * J (upd v j (v j)) m i) (fun m => exp (F v m) * J v m i)) by (intros; now rewrite FX, JX).
    unfold second_true. rewrite !Zvec_spec by assumption. fold Z.
    rewrite (rsum_ext D (fun m => (H m i j + J v m i * J v m j) * exp (F v m)) (fun m => exp (F v m) * J v m j * J v m i + exp (F v m) * H m i j)) by (intros; ring).
    field. lra.
Qed.
Theorem second_code_iff D l J H k i j :
  adjusted2 D l J H k i j = second_true D l J H k i j <-> Zvec D D l J j * Zvec D D l J j = Zvec D D l J i * Zvec D D l J j.
Proof.
  unfold adjusted2, second_true. set (g := rsum D _ / _). split; intros E; lra.
Qed.

(** ---- the order of the entries of a symmetric matrix *)
Lemma rev_flat_map {A B} (f : A -> list B) l : rev (flat_map f l) = flat_map (fun a => rev (f a)) (rev l).
Proof. induction l as [|a l IH]; cbn; [reflexivity|]. rewrite rev_app_distr, IH, flat_map_app. cbn. now rewrite app_nil_r. Qed.
Lemma flat_map_map {A B C} (f : B -> list C) (g : A -> B) l : flat_map f (map g l) = flat_map (fun a => f (g a)) l.
Proof. induction l as [|a l IH]; cbn; [reflexivity|]. now rewrite IH. Qed.
Lemma map_flat_map {A B C} (f : B -> C) (g : A -> list B) l : map f (flat_map g l) = flat_map (fun a => map f (g a)) l.
Proof. induction l as [|a l IH]; cbn; [reflexivity|]. rewrite map_app. now rewrite IH. Qed.
Lemma flat_map_ext_in {A B} (f g : A -> list B) l : (forall a, In a l -> f a = g a) -> flat_map f l = flat_map g l.
Proof. induction l as [|a l IH]; intros H; cbn; [reflexivity|]. rewrite H by now left. rewrite IH by (intros; apply H; now right). reflexivity. Qed.
Lemma rev_seq n : forall a, rev (seq a n) = map (fun i => (2 * a + n - 1 - i)%nat) (seq a n).
Proof.
  induction n as [|n IH]; intros a; [reflexivity|]. rewrite seq_S at 1. rewrite rev_app_distr. cbn [rev app]. cbn [seq map]. f_equal; [lia|].
  rewrite IH. rewrite <- seq_shift, map_map. apply map_ext_in. intros i I. apply in_seq in I. lia.
Qed.
Lemma map_seq_shift {A} (f : nat -> A) n : forall a, map f (seq a n) = map (fun k => f (k + a)%nat) (seq 0 n).
Proof.
  induction n as [|n IH]; intros a; [reflexivity|]. cbn [seq map]. f_equal. rewrite (IH (S a)). rewrite <- seq_shift, map_map. apply map_ext. intros k. f_equal. lia.
Qed.
Lemma filter_leb_seq N i : (i < N)%nat -> filter (fun j => Nat.leb j i) (seq 0 N) = seq 0 (S i).
Proof.
  intros H. replace N with (S i + (N - S i))%nat by lia. rewrite seq_app, filter_app.
  assert (A : forall l, (forall j, In j l -> (j <= i)%nat) -> filter (fun j => Nat.leb j i) l = l).
  { induction l as [|j l IH]; intros L; cbn; [reflexivity|]. rewrite (proj2 (Nat.leb_le j i)) by (apply L; now left). now rewrite IH by (intros; apply L; now right). }
  assert (B : forall l, (forall j, In j l -> (i < j)%nat) -> filter (fun j => Nat.leb j i) l = []).
  { induction l as [|j l IH]; intros L; cbn; [reflexivity|]. rewrite (proj2 (Nat.leb_gt j i)) by (apply L; now left). now rewrite IH by (intros; apply L; now right). }
  rewrite A by (intros j J; apply in_seq in J; lia). rewrite B by (intros j J; apply in_seq in J; lia). apply app_nil_r.
Qed.
Definition lower (D : nat) (S : matr) : list R := flat_map (fun i => map (fun j => S i j) (seq 0 (Datatypes.S i))) (seq 0 D).
Lemma masked_lower D V : masked D V = lower D V.
Proof. unfold masked, lower. apply flat_map_ext_in. intros i I. apply in_seq in I. now rewrite filter_leb_seq by lia. Qed.
Theorem packed_masked D S : packed D S = masked D S.
Proof.
  rewrite masked_lower. unfold packed, lower, triu_indices. rewrite map_flat_map, rev_flat_map, rev_seq, flat_map_map.
  apply flat_map_ext_in. intros i I. apply in_seq in I. rewrite map_map. cbn [fst snd].
  replace (2 * 0 + D - 1 - i)%nat with (D - 1 - i)%nat by lia.
  rewrite <- map_rev, rev_seq, map_map. replace (D - (D - 1 - i))%nat with (Datatypes.S i) by lia.
  rewrite map_seq_shift. apply map_ext_in. intros k K. apply in_seq in K. f_equal; lia.
Qed.
Lemma vzip_app f a b c d : length a = length c -> vzip f (a ++ b) (c ++ d) = vzip f a c ++ vzip f b d.
Proof. revert c. induction a as [|x a IH]; intros [|y c] H; cbn in *; try lia; [reflexivity|]. now rewrite IH by lia. Qed.
Lemma ldot_lower D S V : ldot (lower D S) (lower D V) = rsum D (fun i => rsum (Datatypes.S i) (fun j => S i j * V i j)).
Proof.
  unfold lower. induction D as [|D IH]; [reflexivity|]. rewrite seq_S, !flat_map_app. cbn [flat_map plus]. rewrite !app_nil_r.
  assert (L : forall T : matr, length (flat_map (fun i => map (fun j => T i j) (seq 0 (Datatypes.S i))) (seq 0 D)) = length (lower D T)) by reflexivity.
  unfold ldot in *. rewrite vzip_app.
  - change (fold_right Rplus 0 ?l) with (sumR l). unfold sumR. rewrite fold_right_app. rewrite (rsum_S D (fun i => rsum (Datatypes.S i) (fun j => S i j * V i j))). rewrite <- IH.
    assert (P : forall l a, fold_right Rplus a l = fold_right Rplus 0 l + a) by (induction l as [|x l IHl]; intros a; cbn; [ring|rewrite IHl; ring]).
    rewrite P. f_equal.
    assert (Z : forall l, vzip Rmult (map (fun j => S D j) l) (map (fun j => V D j) l) = map (fun j => S D j * V D j) l) by (induction l as [|x l IHl]; cbn; [reflexivity|now rewrite IHl]).
    etransitivity; [|exact (sum_to_rsum (Datatypes.S D) (fun j => S D j * V D j))]. unfold sum_to. rewrite <- Z. reflexivity.
  - clear. induction (seq 0 D) as [|i l IH]; [reflexivity|]. cbn [flat_map]. rewrite !app_length, !map_length, IH. reflexivity.
Qed.
Theorem half_inner_product D G V : (forall i j, V i j = V j i) ->
  ldot (packed D (halved G)) (masked D V) = / 2 * sum_to D (fun i => sum_to D (fun j => G i j * V i j)).
Proof.
  intros SV. rewrite packed_masked, !masked_lower, ldot_lower, sum_to_rsum.
  rewrite (rsum_ext D (fun i => sum_to D _) (fun i => rsum D (fun j => G i j * V i j))) by (intros; apply sum_to_rsum).
  induction D as [|D IH]; [cbn [rsum]; ring|].
  rewrite (rsum_S D (fun i => rsum (S i) (fun j => halved G i j * V i j))). rewrite IH. cbn [rsum].
  rewrite rsum_plus.
  assert (Q : rsum D (fun j => halved G D j * V D j) = / 2 * (rsum D (fun j => G D j * V D j) + rsum D (fun i => G i D * V i D))).
  { rewrite <- rsum_plus, <- rsum_scal. apply rsum_ext. intros j J. unfold halved. destruct (Nat.eqb_spec D j); [lia|]. rewrite (SV j D). ring. }
  rewrite Q. unfold halved. rewrite Nat.eqb_refl. field.
Qed.
