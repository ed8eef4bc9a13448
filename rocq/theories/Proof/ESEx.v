(** Entropy search: witnesses and examples. *)
From Coq Require Import Reals Lra Psatz List Lia Bool Arith ZArith.
From Coquelicot Require Import Coquelicot.
From Verif.Model Require Import AcqR ES.
From Verif.Spec Require Import RSpec ESSpec ESExamples.
From Verif.Proof Require Import Gauss GaussP AcqP AcqM ESP ESP2.
Import ListNotations.
Local Open Scope R_scope.

Lemma half_half : exp (renormalised 2 (two origin) 0%nat) = / 2.
Proof. rewrite renormalised_exp by lia. cbn [rsum]. unfold two, origin. cbn [Nat.eqb]. rewrite exp_0. field. Qed.
Lemma two_slope k i : slope (fun w => two w k) origin i (two_first origin k i).
Proof.
  unfold slope, two, two_first, origin, upd. destruct (Nat.eqb k 0); [|apply d_const]. destruct i; cbn [Nat.eqb]; [apply d_id|apply d_const].
Qed.
Lemma two_slope2 k i j : slope (fun w => two_first w k i) origin j (two_second k i j).
Proof. unfold slope, two_first, two_second. apply d_const. Qed.
Lemma two_self i k : two (upd origin i (origin i)) k = two origin k.
Proof. unfold two. now rewrite upd_self. Qed.
Theorem second_refuted : exists D F v J H, (0 < D)%nat /\
  (forall i k, F (upd v i (v i)) k = F v k) /\ (forall i k j, J (upd v i (v i)) k j = J v k j) /\
  (forall k i, (k < D)%nat -> (i < D)%nat -> slope (fun w => F w k) v i (J v k i)) /\
  (forall k i j, (k < D)%nat -> (i < D)%nat -> (j < D)%nat -> slope (fun w => J w k i) v j (H k i j)) /\
  exists k i j, (k < D)%nat /\ (i < D)%nat /\ (j < D)%nat /\
    ~ slope (fun w => adjusted D D (F w) (J w) k i) v j (adjusted2 D (F v) (J v) H k i j).
Proof.
  exists 2%nat, two, origin, two_first, two_second. split; [lia|]. split; [exact two_self|]. split; [reflexivity|].
  split; [intros; apply two_slope|]. split; [intros; apply two_slope2|].
  exists 0%nat, 1%nat, 0%nat. split; [lia|]. split; [lia|]. split; [lia|]. intros C.
  apply (second_slope' 2 two origin two_first two_second) in C; try lia; [|exact two_self|reflexivity|intros; apply two_slope|intros; apply two_slope2].
  rewrite !weighted_rsum in C. cbn [rsum] in C. unfold two, two_first, origin in C. cbn [Nat.eqb] in C. rewrite exp_0 in C. lra.
Qed.

Lemma cdf_le_unique z P : probability_le 0 1 z P -> P = cdf z.
Proof.
  intros H. pose proof (probability_cdf 0 1 z Rlt_0_1) as C. replace ((z - 0) / 1) with z in C by field. unfold probability_le in *.
  pose proof (is_RInt_gen_unique (V := R_CompleteNormedModule) (Fa := Rbar_locally m_infty) (Fb := at_point z) (normal 0 1) P H) as U1. pose proof (is_RInt_gen_unique (V := R_CompleteNormedModule) (Fa := Rbar_locally m_infty) (Fb := at_point z) (normal 0 1) _ C) as U2. congruence.
Qed.
Theorem relative_gauss' z : -6 <= z <= 6 -> forall P, probability_le 0 1 z P -> log_relative_gauss z = (normal 0 1 z / P, ln P, 0%Z).
Proof. intros H P HP. rewrite (cdf_le_unique z P HP). now apply relative_gauss. Qed.
Lemma update_example : symmetric unit_cov /\ fa_d (lt_factor 0 1 origin unit_cov 0 0 1) <> None /\
  1 + (fa_p (lt_factor 0 1 origin unit_cov 0 0 1) - 0) * contrast 0 1 (fun i => contrast 0 1 (unit_cov i)) <> 0.
Proof.
  split; [intros i j; unfold unit_cov; now rewrite Nat.eqb_sym|].
  assert (FD : fa_d (lt_factor 0 1 origin unit_cov 0 0 1) <> None).
  { unfold lt_factor. cbv zeta. unfold origin. set (q := Rmax _ 0). replace ((0 - 0) / sqrt 2 + q * (0 * ((0 - 0) / sqrt 2) - 0)) with 0 by (field; pose proof sqrt2_pos; lra).
    replace (0 / sqrt (q + / 10 ^ 25)) with 0 by (unfold Rdiv; ring). rewrite relative_gauss by lra. cbn. discriminate. }
  split; [exact FD|]. pose proof (message_nonneg _ _ _ _ _ _ _ FD) as P.
  assert (C : contrast 0 1 (fun i => contrast 0 1 (unit_cov i)) = 1).
  { unfold contrast, unit_cov. cbn [Nat.eqb]. pose proof sqrt2_sq. pose proof sqrt2_pos. replace (((1 - 0) / sqrt 2 - (0 - 1) / sqrt 2) / sqrt 2) with (2 / (sqrt 2 * sqrt 2)) by (field; lra). rewrite H. field. }
  rewrite C. lra.
Qed.

Theorem pairing D G V : (forall i j, V i j = V j i) ->
  ldot (packed D (halved G)) (masked D V) = / 2 * sum_to D (fun i => sum_to D (fun j => G i j * V i j)).
Proof. exact (half_inner_product D G V). Qed.
Lemma ldot_zero a : forall b, (forall x, In x b -> x = 0) -> ldot a b = 0.
Proof.
  induction a as [|x a IH]; intros [|y b] H; try reflexivity. unfold ldot in *. cbn. rewrite IH by (intros; apply H; now right). rewrite (H y) by now left. ring.
Qed.
Lemma masked_in N V x : In x (masked N V) -> exists i j, x = V i j.
Proof. unfold masked. rewrite in_flat_map. intros [i [_ H]]. apply in_map_iff in H. destruct H as [j [<- _]]. eauto. Qed.
Lemma renormalised_ext D l l' k : (0 < D)%nat -> (forall k, l k = l' k) -> renormalised D l k = renormalised D l' k.
Proof. intros P H. unfold renormalised. rewrite !log_sum_exp by exact P. rewrite H. do 2 f_equal. apply rsum_ext. intros. now rewrite H. Qed.
Theorem es_no_information N S E W stdev : (0 < N)%nat -> (0 < S)%nat -> sum_to N (fun k => exp (es_logP E k)) = 1 ->
  es_acq N S E W (fun _ => 0) stdev = sum_to N (fun k => exp (es_logP E k) * (es_logP E k + es_log E k)).
Proof.
  intros NP SP H1. unfold es_acq, innovations. rewrite sum_to_rsum in *. set (T := rsum N _).
  assert (Z0 : forall c, 0 / c = 0) by (intros; unfold Rdiv; ring).
  assert (E1 : forall s k, predicted_logP N E W (fun i => 0 / stdev) (fun i j => - (0 / stdev * (0 / stdev))) s k = es_logP E k).
  { intros s k. unfold predicted_logP. cbv zeta. rewrite ldot_zero.
    - unfold dot. rewrite (rsum_ext N (fun i => es_dMu E k i * (0 / stdev)) (fun _ => 0)) by (intros; rewrite Z0; ring).
      rewrite (rsum_ext N _ (fun _ => 0)); [rewrite rsum_zero; ring|]. intros i _. rewrite (rsum_ext N _ (fun _ => 0)); [apply rsum_zero|]. intros. rewrite Z0. ring.
    - intros x Hx. apply masked_in in Hx. destruct Hx as [i [j ->]]. rewrite Z0. ring. }
  assert (E2 : forall s k, renormalised N (predicted_logP N E W (fun i => 0 / stdev) (fun i j => - (0 / stdev * (0 / stdev))) s) k = es_logP E k).
  { intros s k. rewrite (renormalised_ext N _ (es_logP E) k NP (E1 s)). unfold renormalised. rewrite log_sum_exp, H1, ln_1 by exact NP. ring. }
  rewrite (rsum_ext S _ (fun _ => T)).
  - assert (C : forall n, rsum n (fun _ => T) = INR n * T) by (induction n as [|n IH]; [cbn; ring|rewrite S_INR; cbn [rsum]; rewrite IH; ring]).
    rewrite C. field. apply not_0_INR. lia.
  - intros s _. unfold T. apply rsum_ext. intros k _. now rewrite E2.
Qed.

Theorem es_refuted : exists (updp : nat -> nat) (val : nat -> nat -> nat -> nat) ops b0 x,
  ~ exists vs p b, es_run updp val (ops ++ [EsEval x]) None b0 = (vs ++ [val (updp (surrogate_after ops b0)) (surrogate_after ops b0) x], p, b).
Proof.
  exists (fun b => b), (fun p _ _ => p), [EsEval 0%nat; EsModel 1%nat], 0%nat, 0%nat. intros (vs & p & b & E). cbn in E.
  assert (V : [0; 0]%nat = vs ++ [1]%nat) by congruence. apply (f_equal (fun l => last l 0%nat)) in V. rewrite last_last in V. discriminate V.
Qed.
Lemma logZ_example : rvec 2 0 (fun _ => 1) 0%nat = -1 / sqrt 2 /\ Amat 2 0 (fun _ => 1) unit_cov 0%nat 0%nat = / 2.
Proof.
  unfold rvec, Amat, Rmat, Cmat, unit_cov. cbn. rewrite sqrt_1. pose proof sqrt2_sq. pose proof sqrt2_pos. split; [lra|].
  replace (/ 2 * (0 + (0 + 1 * (-1 / sqrt 2) * 1 * (1 * (-1 / sqrt 2))) + (0 + (0 + 1 * (-1 / sqrt 2) * 1 * (1 * (-1 / sqrt 2)))))) with (1 / (sqrt 2 * sqrt 2)) by (field; lra). rewrite H. field.
Qed.
