(** Entropy search: concrete cases of the theorems about marginals, covariance derivatives and two points. *)
From Coq Require Import Reals Lra Psatz List Lia Bool Arith.
From Coquelicot Require Import Coquelicot.
From Verif.Model Require Import AcqR ES.
From Verif.Spec Require Import RSpec ESSpec ESExamples.
From Verif.Proof Require Import Gauss GaussP AcqP AcqM ESP ESP2 ESEx ESMarg ESCov ESTwo.
Import ListNotations.
Local Open Scope R_scope.

Lemma unit_sym : symmetric unit_cov.
Proof. intros i j. unfold unit_cov. now rewrite Nat.eqb_sym. Qed.
Lemma unit_pd D : positive_definite D unit_cov.
Proof.
  intros x [i [I N]]. rewrite sum_to_rsum, (rsum_ext D _ (fun i => x i * x i)).
  - assert (0 < x i * x i) by nra. pose proof (rsum_one D (fun i => x i * x i) i I ltac:(intros; nra)). cbv beta in *. lra.
  - intros a A. rewrite sum_to_rsum, (rsum_ext D _ (fun b => (if Nat.eqb a b then 1 else 0) * (x a * x b))) by (intros; unfold unit_cov; ring). now apply (delta_sum D a (fun b => x a * x b)).
Qed.
Lemma unit_variance : contrast 0 1 (fun i => contrast 0 1 (unit_cov i)) = 1.
Proof. rewrite contrast2 by exact unit_sym. unfold unit_cov. cbn. field. Qed.
(** the ratio of density and distribution function at 0 *)
Definition ratio0 : R := normal 0 1 0 / / 2.
Lemma ratio_zero : 0 < ratio0 /\ / 2 <= ratio0 * ratio0 < 1.
Proof.
  assert (Q : ratio0 * ratio0 = 2 / PI).
  { unfold ratio0, normal. replace (- ((0 - 0) / 1 * ((0 - 0) / 1)) / 2) with 0 by field. rewrite exp_0, Rmult_1_l. pose proof PI_RGT_0. assert (P2 : 0 < 2 * PI) by lra.
    pose proof (sqrt_lt_R0 _ P2). pose proof (sqrt_sqrt (2 * PI) ltac:(lra)) as S.
    replace (1 / sqrt (2 * PI) / / 2 * (1 / sqrt (2 * PI) / / 2)) with (4 / (sqrt (2 * PI) * sqrt (2 * PI))) by (field; lra). rewrite S. field. lra. }
  pose proof PI_4. pose proof PI2_3_2. split.
  - unfold ratio0. apply Rdiv_lt_0_compat; [|lra]. unfold normal. apply Rdiv_lt_0_compat; [apply exp_pos|]. rewrite Rmult_1_l. apply sqrt_lt_R0. lra.
  - rewrite Q. split.
    + apply (Rmult_le_reg_r PI); [lra|]. replace (2 / PI * PI) with 2 by (field; lra). lra.
    + apply (Rmult_lt_reg_r PI); [lra|]. replace (2 / PI * PI) with 2 by (field; lra). lra.
Qed.
Lemma kept_zero m : m = 0 -> kept_message m 1 ratio0.
Proof.
  intros ->. destruct ratio_zero as [E0 [E1 E2]]. unfold kept_message, factor_precision, factor_mean, restricted_mean, restricted_variance. rewrite sqrt_1.
  replace (1 * (1 - ratio0 * (ratio0 + 0 / 1))) with (1 - ratio0 * ratio0) by field. rewrite ?Rinv_1. set (b := ratio0 * ratio0) in *. assert (B : 2 <= / (1 - b)).
  { apply (Rmult_le_reg_r (1 - b)); [lra|]. rewrite Rinv_l by lra. lra. }
  assert (EPS : / 2 ^ 23 <= / 2) by (apply Rinv_le_contravar; lra). split; [lra|].
  assert (R : / 2 <= ratio0) by (unfold b in E1, E2; nra). replace ((0 + 1 * ratio0) / (1 - b) - 0 / 1) with (ratio0 * / (1 - b)) by (field; lra).
  apply Rle_trans with (/ 2 * 2); [lra|]. apply Rmult_le_compat; lra.
Qed.
Lemma half_probability : probability_le 0 1 0 (/ 2).
Proof. pose proof (probability_cdf 0 1 0 Rlt_0_1) as C. replace ((0 - 0) / 1) with 0 in C by field. rewrite cdf_0 in C. exact C. Qed.
Lemma origin_contrast s l : contrast s l origin = 0.
Proof. unfold contrast, origin. unfold Rdiv. ring. Qed.
Lemma matching_example : symmetric unit_cov /\
  let w := contrast 0 1 (fun i => contrast 0 1 (unit_cov i)) in let cM := contrast 0 1 origin in
  0 < w /\ 0 * w < 1 /\ let v := w / (1 - 0 * w) in let m := cM + v * (0 * cM - 0) in let z := m / sqrt (v + / 10 ^ 25) in
  -6 <= z <= 6 /\ probability_le 0 1 z (/ 2) /\ kept_message m v (normal 0 1 z / / 2).
Proof.
  split; [exact unit_sym|]. rewrite unit_variance, origin_contrast. cbv zeta. replace (1 / (1 - 0 * 1)) with 1 by field. replace (0 + 1 * (0 * 0 - 0)) with 0 by ring.
  replace (0 / sqrt (1 + / 10 ^ 25)) with 0 by (unfold Rdiv; ring). split; [lra|]. split; [lra|]. split; [lra|]. split; [exact half_probability|]. now apply kept_zero.
Qed.
(** one by one matrices *)
Definition solve1 (B : matr) : matr := fun _ _ => / B 0%nat 0%nat.
Definition ldet1 (B : matr) : R := ln (B 0%nat 0%nat).
Lemma two_example : symmetric unit_cov /\ positive_definite 2 unit_cov /\
  (forall B, 0 < B 0%nat 0%nat -> solve1 B 0%nat 0%nat = / B 0%nat 0%nat /\ ldet1 B = ln (B 0%nat 0%nat)) /\
  let v := (unit_cov 0%nat 0%nat - 2 * unit_cov 0%nat 1%nat + unit_cov 1%nat 1%nat) / 2 in let m := (origin 1%nat - origin 0%nat) / sqrt 2 in
  let z := m / sqrt (v + / 10 ^ 25) in
  -6 <= z <= 6 /\ probability_le 0 1 z (/ 2) /\ kept_message m v (normal 0 1 z / / 2) /\ kept_message (- m) v (normal 0 1 z / (1 - / 2)).
Proof.
  split; [exact unit_sym|]. split; [apply unit_pd|]. split; [intros; split; reflexivity|]. cbv zeta.
  replace ((unit_cov 0%nat 0%nat - 2 * unit_cov 0%nat 1%nat + unit_cov 1%nat 1%nat) / 2) with 1 by (unfold unit_cov; cbn; field).
  replace ((origin 1%nat - origin 0%nat) / sqrt 2) with 0 by (unfold origin, Rdiv; ring). replace (0 / sqrt (1 + / 10 ^ 25)) with 0 by (unfold Rdiv; ring).
  split; [lra|]. split; [exact half_probability|]. split; [now apply kept_zero|]. replace (1 - / 2) with (/ 2) by field. apply kept_zero. ring.
Qed.
Lemma sweeps_example : exists w, sweeps 50 2 0 1 (start origin unit_cov) = Some w /\
  inverse_of 1 (IRSR 2 0 (sw_P w) unit_cov) (solve1 (IRSR 2 0 (sw_P w) unit_cov)).
Proof.
  assert (K : (0 < 2)%nat) by lia.
  destruct (two_sweeps origin unit_cov 0 (fun _ => True)) with (count := 49%nat) (w := start origin unit_cov) as (w & SW & F & _); [|now apply fine_start, unit_sym|].
  - intros w F. destruct (cavity origin unit_cov 0 K (unit_pd 2) w F) as [C1 C2]. destruct (two_step origin unit_cov 0 K (unit_pd 2) w F) as [_ ST].
    pose proof (prior_positive origin unit_cov 0 K unit_sym (unit_pd 2)) as V0.
    destruct (lt_zero 0 (other 0 0) (sw_M w) (sw_V w) (sw_MP w 0%nat) (sw_P w 0%nat) _ _ (normal 0 1 0 / cdf 0) (ln (cdf 0)) (proj1 (proj2 F)) V0 C1 C2) as (_ & _ & _ & [d L4]).
    + rewrite origin_contrast. replace (0 / sqrt _) with 0 by (unfold Rdiv; ring). apply relative_gauss. lra.
    + destruct (ST d L4) as (w' & diff & O & F' & _). exists w', diff. auto.
  - exists w. split; [exact SW|]. destruct F as (PP & _ & _). intros a c A C. assert (a = 0%nat) by lia. assert (c = 0%nat) by lia. subst a c.
    assert (B : 0 < IRSR 2 0 (sw_P w) unit_cov 0%nat 0%nat).
    { rewrite IRSR_squeezed, (squeezed_contrast 2 0 (sw_P w) K unit_cov 0 0) by lia. cbn [Nat.eqb]. rewrite contrast_scal. change (other 0 0) with 1%nat. rewrite unit_variance.
      pose proof (sqrt_pos (sw_P w 0%nat)). nra. }
    rewrite !sum_to_rsum. cbn [rsum Nat.eqb]. unfold solve1. split; field; lra.
Qed.
Lemma derivative_example : symmetric unit_cov /\ let P := fun _ : nat => 1 in
  locally 0 (fun t => inverse_of 1 (IRSR 2 0 P (moved unit_cov unit_cov t)) (solve1 (IRSR 2 0 P (moved unit_cov unit_cov t)))) /\
  jacobi 1 ldet1 (IRSR 2 0 P unit_cov) (solve1 (IRSR 2 0 P unit_cov)).
Proof.
  split; [exact unit_sym|]. intros P. assert (K : (0 < 2)%nat) by lia.
  assert (B : forall V, IRSR 2 0 P V 0%nat 0%nat = 1 + contrast 0 1 (fun i => contrast 0 1 (V i))).
  { intros V. rewrite IRSR_squeezed, (squeezed_contrast 2 0 P K V 0 0) by lia. cbn [Nat.eqb]. rewrite contrast_scal. change (other 0 0) with 1%nat. unfold P. rewrite sqrt_1. ring. }
  split.
  - exists (mkposreal 1 Rlt_0_1). intros t HT. cbn in HT. unfold AbsRing_ball, abs, minus, plus, opp in HT. cbn in HT. rewrite Ropp_0, Rplus_0_r in HT. apply Rabs_def2 in HT.
    intros a c A C. assert (a = 0%nat) by lia. assert (c = 0%nat) by lia. subst a c.
    assert (BP : 0 < IRSR 2 0 P (moved unit_cov unit_cov t) 0%nat 0%nat).
    { rewrite B, contrast2 by (intros i j; unfold moved; rewrite (unit_sym i j); ring). unfold moved, unit_cov. cbn. lra. }
    rewrite !sum_to_rsum. cbn [rsum Nat.eqb]. unfold solve1. split; field; lra.
  - intros Bt B' H. destruct (H 0%nat 0%nat ltac:(lia) ltac:(lia)) as [H0 H1]. unfold ldet1, solve1. rewrite sum_to_rsum. cbn [rsum]. rewrite sum_to_rsum. cbn [rsum].
    assert (BP : 0 < Bt 0 0%nat 0%nat) by (rewrite H0, B, unit_variance; lra). eapply d_eq; [apply (is_derive_comp ln (fun t => Bt t 0%nat 0%nat)); [apply is_derive_ln; exact BP|exact H1]|].
    unfold scal; cbn; unfold mult; cbn. rewrite H0. ring.
Qed.
