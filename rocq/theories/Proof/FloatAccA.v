(** Accuracy of acquisition values: rounding errors and real analysis. *)
From Coq Require Import List ZArith Bool Reals Lra Lia Psatz Machin.
From Coquelicot Require Import Coquelicot.
From Flocq Require Import Core Relative IEEE754.BinarySingleNaN.
From Verif.Model Require Import Py Float FloatStop FloatCons FloatAcq AcqR.
From Verif.Spec Require Import FloatSpec FloatConsSpec RSpec FloatAcqSpec FloatAccSpec.
From Verif.Proof Require Import FloatP FloatStopP FloatConsP Gauss GaussP AcqP FloatAcqP.
Local Open Scope R_scope.

(** ---- the units of rounding *)
Definition ee : R := / 9007199254740992.
Definition et : R := bpow radix2 (-1075).
Lemma ee_pow : bpow radix2 (-53) = ee.
Proof. reflexivity. Qed.
Lemma et_small : 0 < et <= ee * ee * ee.
Proof.
  split; [apply bpow_gt_0|]. rewrite <- !ee_pow, <- !bpow_plus. apply bpow_le. lia.
Qed.
Lemma ee_small : 0 < ee <= / 1000000000000.
Proof. unfold ee. lra. Qed.
Lemma rerr : forall x b, Rabs x <= b -> Rabs (rnd x - x) <= ee * b + et.
Proof.
  intros x b H. pose proof (rounding_error x) as E. unfold rounding in E. rewrite ee_pow in E. fold et in E. pose proof ee_small.
  assert (ee * Rabs x <= ee * b) by (apply Rmult_le_compat_l; lra). lra.
Qed.
Lemma in_range : forall x, Rabs x <= bpow radix2 1000 -> Rabs (rnd x) < bpow radix2 1024.
Proof.
  intros x H. apply (between_lt (- bpow radix2 1000) (bpow radix2 1000)).
  - rewrite Rabs_Ropp, Rabs_pos_eq by apply bpow_ge_0. apply bpow_lt. lia.
  - rewrite Rabs_pos_eq by apply bpow_ge_0. apply bpow_lt. lia.
  - apply rnd_between; [apply generic_format_opp, F_pow; lia | apply F_pow; lia|]. apply Rabs_le_inv. exact H.
Qed.

(** ---- pi and the square roots *)
Lemma pi_bounds : 884279719003555 / 281474976710656 - 4 * ee <= PI <= 884279719003555 / 281474976710656 + 4 * ee.
Proof.
  pose proof (PI_2_3_7_ineq 8) as H. unfold PI_2_3_7_tg, tg_alt, Ratan_seq in H.
  cbv [sum_f_R0 Nat.add Nat.mul] in H. rewrite !INR_IZR_INZ in H. simpl Z.of_nat in H. cbv [pow] in H. unfold ee. lra.
Qed.
Lemma sqrt_near : forall a b, 1 <= a -> 1 <= b -> Rabs (sqrt a - sqrt b) <= Rabs (a - b).
Proof.
  intros a b Ha Hb. assert (1 <= sqrt a) by (rewrite <- sqrt_1; apply sqrt_le_1; lra). assert (1 <= sqrt b) by (rewrite <- sqrt_1; apply sqrt_le_1; lra).
  replace (a - b) with ((sqrt a - sqrt b) * (sqrt a + sqrt b)).
  - rewrite Rabs_mult, (Rabs_pos_eq (sqrt a + sqrt b)) by lra. pose proof (Rabs_pos (sqrt a - sqrt b)). nra.
  - replace ((sqrt a - sqrt b) * (sqrt a + sqrt b)) with (sqrt a * sqrt a - sqrt b * sqrt b) by ring. rewrite !sqrt_sqrt by lra. reflexivity.
Qed.
Lemma sqrt2_near : Rabs (val sqrt_2 - sqrt 2) <= 2 * ee.
Proof.
  unfold sqrt_2. rewrite fsqrt_finite. destruct (of_Z_ok 2 ltac:(cbn; lia)) as [_ ->]. pose proof s2_sq. pose proof s2_pos.
  eapply Rle_trans; [apply (rerr _ (3 / 2)); rewrite Rabs_pos_eq; nra|]. pose proof et_small. pose proof ee_small. nra.
Qed.
Lemma sqrt2pi_near : Rabs (val sqrt_2pi - sqrt (2 * PI)) <= 32 * ee.
Proof.
  unfold sqrt_2pi. rewrite fsqrt_finite. destruct (of_Z_ok 2 ltac:(cbn; lia)) as [N2 V2]. destruct (lit_ok 884279719003555 (-48)) as [Np Vp]; [cbn; lia | lia|].
  fold pi_f in Np, Vp. pose proof pi_bounds as P. pose proof et_small as Et. pose proof ee_small as Ee.
  assert (Vp' : val pi_f = 884279719003555 / 281474976710656) by (rewrite Vp; change (bpow radix2 (-48)) with (/ 281474976710656); reflexivity).
  assert (Bp : 3 < val pi_f < 4) by (rewrite Vp'; lra).
  assert (A2 : Rabs (2 * val pi_f) <= 8) by (rewrite Rabs_pos_eq; lra).
  destruct (fmul_ok (of_Z 2) pi_f N2 Np) as [Nm Vm].
  { rewrite V2. apply in_range. eapply Rle_trans; [exact A2|]. change 8 with (bpow radix2 3). apply bpow_le. lia. }
  rewrite V2 in Vm. rewrite Vm. pose proof (rerr _ 8 A2) as E1. set (q := rnd (2 * val pi_f)) in *.
  assert (E1' : Rabs (q - 2 * PI) <= 17 * ee).
  { apply Rabs_le. apply Rabs_le_inv in E1. rewrite <- Vp' in P. nra. }
  assert (Q : 1 <= q <= 9) by (apply Rabs_le_inv in E1'; lra).
  assert (S : Rabs (sqrt q - sqrt (2 * PI)) <= 17 * ee) by (eapply Rle_trans; [apply sqrt_near; lra | exact E1']).
  assert (Sq : Rabs (sqrt q) <= 3).
  { rewrite Rabs_pos_eq by apply sqrt_pos. replace 3 with (sqrt 9) by (replace 9 with (3 * 3) by ring; apply sqrt_square; lra). apply sqrt_le_1; lra. }
  pose proof (rerr _ 3 Sq) as E2. apply Rabs_le. apply Rabs_le_inv in S, E2. nra.
Qed.

(** ---- the normal distribution and density change slowly *)
Lemma yexp : forall y, 0 <= y -> y * exp (- y) <= 1.
Proof.
  intros y H. rewrite exp_Ropp. pose proof (exp_pos y). apply (Rmult_le_reg_r (exp y)); [assumption|]. rewrite Rmult_assoc, Rinv_l, Rmult_1_r, Rmult_1_l by lra.
  destruct H as [H| <-]; [pose proof (exp_ineq1 y ltac:(lra)); lra | lra].
Qed.
Lemma sq_exp : forall t, t * t * exp (- (t * t / 4)) <= 4.
Proof. intros t. pose proof (yexp (t * t / 4) ltac:(nra)). lra. Qed.
Lemma s2PI_1 : 1 <= sqrt (2 * PI).
Proof. rewrite <- sqrt_1. apply sqrt_le_1; pose proof pi_bounds; pose proof ee_small; lra. Qed.
Lemma exp_le : forall a b, a <= b -> exp a <= exp b.
Proof. intros a b [H| ->]; [left; now apply exp_increasing | right; reflexivity]. Qed.
Lemma exp_le1 : forall a, a <= 0 -> exp a <= 1.
Proof. intros a H. rewrite <- exp_0. now apply exp_le. Qed.
Lemma phi_le : forall c, phi c <= exp (- (c * c / 2)).
Proof.
  intros c. unfold phi. replace (- / 2 * (c * c)) with (- (c * c / 2)) by (unfold Rdiv; ring). pose proof (exp_pos (- (c * c / 2))). pose proof s2PI_1. apply div_le; nra.
Qed.
Lemma phi_1 : forall c, phi c <= 1.
Proof. intros c. eapply Rle_trans; [apply phi_le|]. apply exp_le1. nra. Qed.
Lemma cdf_mvt : forall a b, exists c, Rmin a b <= c <= Rmax a b /\ cdf b - cdf a = phi c * (b - a).
Proof.
  intros a b. destruct (MVT_gen cdf a b phi) as (c & H & E).
  - intros x _. apply cdf_derive.
  - intros x _. apply continuity_pt_filterlim. apply cont_of_derive. eexists. apply cdf_derive.
  - exists c. auto.
Qed.
Lemma cdf_near : forall a b, Rabs (cdf a - cdf b) <= Rabs (a - b).
Proof.
  intros a b. destruct (cdf_mvt b a) as (c & _ & E). rewrite E, Rabs_mult, (Rabs_pos_eq (phi c)) by (left; apply phi_pos).
  pose proof (phi_1 c). pose proof (phi_pos c). pose proof (Rabs_pos (a - b)). nra.
Qed.
Lemma h_derive : forall x, is_derive (fun u => u * cdf u + phi u) x (cdf x).
Proof. intros x. eapply d_eq; [apply d_plus; [apply d_mult; [apply d_id|apply cdf_derive]|apply phi_derive]|]. cbv beta. ring. Qed.
Lemma h_near : forall a b, Rabs (a * cdf a + phi a - (b * cdf b + phi b)) <= Rabs (a - b).
Proof.
  assert (W : forall a b, a < b -> 0 <= b * cdf b + phi b - (a * cdf a + phi a) <= b - a).
  { intros a b L. pose proof (h_incr a b L). split; [lra|].
    destruct (MVT_gen (fun u => u * cdf u + phi u) a b cdf) as (c & _ & E).
    - intros x _. apply h_derive.
    - intros x _. apply continuity_pt_filterlim. apply (cont_of_derive (fun u => u * cdf u + phi u)). eexists. apply h_derive.
    - cbv beta in E. rewrite E. pose proof (cdf_lt_1 c). pose proof (cdf_pos c). nra. }
  intros a b. destruct (Rtotal_order a b) as [L|[->|L]].
  - specialize (W a b L). rewrite Rabs_left1, (Rabs_left1 (a - b)); lra.
  - unfold Rminus. rewrite !Rplus_opp_r. lra.
  - specialize (W b a L). rewrite !Rabs_pos_eq; lra.
Qed.
Lemma cdf_weighted : forall u v, Rabs (v - u) <= 9 / 2 * ee * Rabs u + 2 * et ->
  Rabs u * Rabs (cdf v - cdf u) <= 30 * ee /\ Rabs (cdf v - cdf u) <= 30 * ee.
Proof.
  intros u v H. pose proof ee_small as E. pose proof et_small as T. destruct (cdf_mvt u v) as (c & Hc & Ev).
  rewrite Ev, Rabs_mult, (Rabs_pos_eq (phi c)) by (left; apply phi_pos). pose proof (phi_pos c) as P0. pose proof (phi_1 c) as P1.
  pose proof (Rabs_pos u) as U0. pose proof (Rabs_pos (v - u)) as V0.
  assert (T' : et <= ee * / 1000) by nra.
  destruct (Rle_lt_dec (Rabs u) 1) as [L|G].
  - assert (Rabs (v - u) <= 7 * ee) by nra. assert (B : phi c * Rabs (v - u) <= 7 * ee) by nra. assert (0 <= phi c * Rabs (v - u)) by (apply Rmult_le_pos; lra). split; nra.
  - assert (C : Rabs u * Rabs u / 2 <= c * c).
    { assert (D : 9 / 10 * Rabs u <= Rabs c).
      { assert (W : Rabs (c - u) <= Rabs (v - u)).
        { revert Hc. unfold Rmin, Rmax. destruct (Rle_dec u v); intros Hc; [rewrite !Rabs_pos_eq; lra | rewrite !Rabs_left1; lra]. }
        assert (Q : Rabs u <= Rabs c + Rabs (c - u)). { replace u with (c - (c - u)) at 1 by ring. eapply Rle_trans; [apply Rabs_triang|]. rewrite Rabs_Ropp. lra. }
        nra. }
      assert (S : c * c = Rabs c * Rabs c) by (rewrite <- Rabs_mult, Rabs_pos_eq; nra). rewrite S. nra. }
    assert (X : phi c <= exp (- (Rabs u * Rabs u / 4))) by (eapply Rle_trans; [apply phi_le | apply exp_le; lra]).
    pose proof (sq_exp (Rabs u)) as Y. pose proof (exp_pos (- (Rabs u * Rabs u / 4))) as Z. set (x := exp (- (Rabs u * Rabs u / 4))) in *.
    assert (V : Rabs (v - u) <= 7 * ee * Rabs u) by nra.
    assert (B1 : phi c * Rabs (v - u) <= x * (7 * ee * Rabs u)) by (apply Rmult_le_compat; lra).
    assert (B2 : Rabs u * (x * (7 * ee * Rabs u)) <= 28 * ee) by (replace (Rabs u * (x * (7 * ee * Rabs u))) with (7 * ee * (Rabs u * Rabs u * x)) by ring; nra).
    assert (B3 : 0 <= phi c * Rabs (v - u)) by (apply Rmult_le_pos; lra).
    assert (B4 : Rabs u * (phi c * Rabs (v - u)) <= 28 * ee) by (eapply Rle_trans; [apply Rmult_le_compat_l; [lra | exact B1] | exact B2]).
    split; [lra | nra].
Qed.
Lemma exp_weighted : forall u z, z <= 0 -> Rabs (z + u * u / 2) <= 11 / 10 * ee * (u * u) + 3 * et -> Rabs (exp z - exp (- (u * u / 2))) <= 15 * ee.
Proof.
  intros u z Hz H. pose proof ee_small as E. pose proof et_small as T. assert (T' : et <= ee * / 1000) by nra. set (y := - (u * u / 2)) in *.
  assert (U : 0 <= u * u) by nra.
  destruct (MVT_gen exp y z exp) as (c & Hc & Ev); [intros x _; apply is_derive_exp | intros x _; apply continuity_pt_filterlim, continuous_exp|].
  rewrite Ev, Rabs_mult, (Rabs_pos_eq (exp c)) by (left; apply exp_pos).
  assert (Hd : Rabs (z - y) <= 11 / 10 * ee * (u * u) + 3 * et) by (unfold y; replace (z - - (u * u / 2)) with (z + u * u / 2) by ring; exact H).
  assert (C : c <= - (u * u / 4) + 3 * et).
  { assert (c <= y + Rabs (z - y)). { revert Hc. unfold Rmin, Rmax. pose proof (Rle_abs (z - y)). pose proof (Rabs_pos (z - y)). destruct (Rle_dec y z); intros; lra. }
    unfold y in *. nra. }
  assert (X : exp c <= 3 * exp (- (u * u / 4))).
  { eapply Rle_trans; [apply exp_le; exact C|]. rewrite exp_plus, Rmult_comm. apply Rmult_le_compat_r; [left; apply exp_pos|].
    eapply Rle_trans; [apply (exp_le _ 1); nra | exact exp_le_3]. }
  pose proof (sq_exp u) as Y. pose proof (exp_le1 (- (u * u / 4)) ltac:(nra)) as W. pose proof (exp_pos (- (u * u / 4))) as P. set (x := exp (- (u * u / 4))) in *.
  pose proof (Rabs_pos (z - y)). apply Rle_trans with (3 * x * (11 / 10 * ee * (u * u) + 3 * et)); [apply Rmult_le_compat; try lra; left; apply exp_pos|].
  replace (3 * x * (11 / 10 * ee * (u * u) + 3 * et)) with (33 / 10 * ee * (u * u * x) + 9 * (et * x)) by field. nra.
Qed.

