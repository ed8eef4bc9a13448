(** Accuracy of acquisition values: proofs. *)
From Coq Require Import List ZArith Bool Reals Lra Lia Psatz Machin.
From Coquelicot Require Import Coquelicot.
From Flocq Require Import Core Relative IEEE754.BinarySingleNaN.
From Verif.Model Require Import Py Float FloatStop FloatCons FloatAcq AcqR.
From Verif.Spec Require Import FloatSpec FloatConsSpec RSpec FloatAcqSpec FloatAccSpec.
From Verif.Proof Require Import FloatP FloatStopP FloatConsP Gauss GaussP AcqP FloatAcqP FloatAccA.
Local Open Scope R_scope.

(** ---- moderate inputs *)
Lemma et_ee : et <= / 1000000 * ee.
Proof. pose proof ee_small. pose proof et_small. nra. Qed.
Lemma ee_ee : ee * ee <= / 1000000 * ee.
Proof. pose proof ee_small. nra. Qed.
Lemma tenth10_low : bpow radix2 (-36) <= val tenth10.
Proof.
  destruct (lit_ok 7737125245533627 (-86)) as [_ V]; [cbn; lia|lia|]. unfold tenth10. rewrite V. replace (-36)%Z with (50 + -86)%Z by lia. rewrite bpow_plus.
  apply Rmult_le_compat_r; [apply bpow_ge_0|]. change (bpow radix2 50) with (IZR (2 ^ 50)). apply IZR_le. cbn. lia.
Qed.
Lemma tenth10_high : val tenth10 <= 1.
Proof.
  destruct tenth10_ok as [N _]. destruct of1 as [O V]. assert (F : flt tenth10 (of_Z 1) = true) by (vm_compute; reflexivity). apply (flt_true _ _ N O) in F. lra.
Qed.
Lemma pow_pos2 : forall a b, (a <= b)%Z -> 2 * bpow radix2 a <= bpow radix2 (b + 1).
Proof. intros a b H. rewrite bpow_plus. change (bpow radix2 1) with 2. pose proof (bpow_le radix2 a b H). lra. Qed.
Lemma clipped_mod : forall s, moderate s -> number (clipped s) /\ bpow radix2 (-36) <= val (clipped s) <= bpow radix2 900 /\ val (clipped s) = Rmax (val s) (val tenth10).
Proof.
  intros s [N B]. destruct (clipped_ok s N) as (C1 & C2 & C3). pose proof tenth10_low. pose proof tenth10_high. destruct tenth10_ok as [T _].
  pose proof (Rle_abs (val s)). assert (1 <= bpow radix2 900) by (change 1 with (bpow radix2 0); apply bpow_le; lia).
  unfold clipped in *. destruct (flt s tenth10) eqn:F.
  - apply (flt_true _ _ N T) in F. split; [exact T|]. split; [lra | rewrite Rmax_right; lra].
  - apply (flt_false _ _ N T) in F. split; [exact N|]. split; [lra | rewrite Rmax_left; lra].
Qed.
Lemma fsub_mod : forall x y b, number x -> number y -> Rabs (val x) + Rabs (val y) <= b -> b <= bpow radix2 1000 ->
  number (fsub x y) /\ Rabs (val (fsub x y) - (val x - val y)) <= ee * b + et.
Proof.
  intros x y b Nx Ny B1 B2. assert (A : Rabs (val x - val y) <= b) by (eapply Rle_trans; [apply Rabs_triang|]; rewrite Rabs_Ropp; exact B1).
  destruct (fsub_ok x y Nx Ny) as [N V]; [apply in_range; lra|]. split; [exact N|]. rewrite V. now apply rerr.
Qed.
Lemma fdiv_mod : forall x y b, number x -> 0 < val y -> Rabs (val x) / val y <= b -> b <= bpow radix2 1000 ->
  number (fdiv x y) /\ Rabs (val (fdiv x y) - val x / val y) <= ee * (Rabs (val x) / val y) + et.
Proof.
  intros x y b Nx Py B1 B2. assert (A : Rabs (val x / val y) = Rabs (val x) / val y) by (unfold Rdiv; rewrite Rabs_mult, Rabs_inv, (Rabs_pos_eq (val y)); lra).
  destruct (fdiv_ok x y Nx) as [N V]; [lra | apply in_range; lra|]. split; [exact N|]. rewrite V. apply rerr. lra.
Qed.
Lemma fmul_mod : forall x y b, number x -> number y -> Rabs (val x) * Rabs (val y) <= b -> b <= bpow radix2 1000 ->
  number (fmul x y) /\ Rabs (val (fmul x y) - val x * val y) <= ee * b + et.
Proof.
  intros x y b Nx Ny B1 B2. assert (A : Rabs (val x * val y) <= b) by (rewrite Rabs_mult; exact B1).
  destruct (fmul_ok x y Nx Ny) as [N V]; [apply in_range; lra|]. split; [exact N|]. rewrite V. now apply rerr.
Qed.
Lemma fadd_mod : forall x y b, number x -> number y -> Rabs (val x) + Rabs (val y) <= b -> b <= bpow radix2 1000 ->
  number (fadd x y) /\ Rabs (val (fadd x y) - (val x + val y)) <= ee * b + et.
Proof.
  intros x y b Nx Ny B1 B2. assert (A : Rabs (val x + val y) <= b) by (eapply Rle_trans; [apply Rabs_triang | exact B1]).
  destruct (fadd_ok x y Nx Ny) as [N V]; [apply in_range; lra|]. split; [exact N|]. rewrite V. now apply rerr.
Qed.
Lemma near_abs : forall x y d, Rabs (x - y) <= d -> Rabs x <= Rabs y + d.
Proof. intros x y d H. replace x with (y + (x - y)) by ring. eapply Rle_trans; [apply Rabs_triang|]. lra. Qed.
Lemma near_trans : forall x y z d e, Rabs (x - y) <= d -> Rabs (y - z) <= e -> Rabs (x - z) <= d + e.
Proof. intros x y z d e H K. replace (x - z) with ((x - y) + (y - z)) by ring. eapply Rle_trans; [apply Rabs_triang|]. lra. Qed.

(** ---- the quantile *)
Lemma quantile_near : forall par fmin m s, moderate par -> moderate fmin -> moderate m -> moderate s ->
  number (quantile_u par fmin m (clipped s)) /\
  Rabs (val (quantile_u par fmin m (clipped s)) * val (clipped s) - (val fmin - val m - val par)) <= 6 * ee * size3 fmin m par + ee * val (clipped s) /\
  Rabs (val (quantile_u par fmin m (clipped s))) <= bpow radix2 960.
Proof.
  intros par fmin m s [Np Bp] [Nf Bf] [Nm Bm] Ms. destruct (clipped_mod s Ms) as (Nc & [Lc Hc] & _). unfold quantile_u, size3.
  pose proof ee_small as E. pose proof et_small as T. pose proof (Rabs_pos (val fmin)). pose proof (Rabs_pos (val m)). pose proof (Rabs_pos (val par)).
  set (M := Rabs (val fmin) + Rabs (val m) + Rabs (val par)) in *.
  assert (P : 0 < val (clipped s)) by (pose proof (bpow_gt_0 radix2 (-36)); lra).
  assert (Big : M <= 3 * bpow radix2 900) by (unfold M; lra). assert (M0 : 0 <= M) by (unfold M; lra).
  assert (EM : 3 * ee * M <= M) by nra.
  assert (K1 : 16 * bpow radix2 900 <= bpow radix2 904) by (change 904%Z with (4 + 900)%Z; rewrite bpow_plus; change (bpow radix2 4) with 16; lra).
  assert (K2 : bpow radix2 904 <= bpow radix2 1000) by (apply bpow_le; lia). pose proof (bpow_gt_0 radix2 900) as K0.
  assert (K3 : 1 <= bpow radix2 900) by (change 1 with (bpow radix2 0); apply bpow_le; lia).
  destruct (fsub_mod fmin m (Rabs (val fmin) + Rabs (val m)) Nf Nm ltac:(lra) ltac:(unfold M in *; lra)) as [N1 E1].
  pose proof (near_abs _ _ _ E1) as A1. assert (A1' : Rabs (val fmin - val m) <= Rabs (val fmin) + Rabs (val m)) by (eapply Rle_trans; [apply Rabs_triang|]; rewrite Rabs_Ropp; lra).
  assert (et1 : et <= 1) by nra.
  assert (Q : Rabs (val (fsub fmin m)) + Rabs (val par) <= 2 * M + et) by (unfold M in *; nra).
  destruct (fsub_mod (fsub fmin m) par (2 * M + et) N1 Np Q) as [N2 E2]; [lra|].
  set (d1 := val (fsub fmin m)) in *. set (d2 := val (fsub (fsub fmin m) par)) in *. set (X := val fmin - val m - val par).
  assert (E3 : Rabs (d2 - X) <= 3 * ee * M + 3 * et).
  { assert (W : Rabs ((d1 - val par) - X) <= ee * M + et) by (unfold X; replace (d1 - val par - (val fmin - val m - val par)) with (d1 - (val fmin - val m)) by ring; unfold M; nra).
    pose proof (near_trans _ _ _ _ _ E2 W). nra. }
  assert (AX : Rabs X <= M).
  { unfold X, M. eapply Rle_trans; [apply Rabs_triang|]. rewrite Rabs_Ropp. apply Rplus_le_compat_r. lra. }
  pose proof (near_abs _ _ _ E3) as A2. assert (A2' : Rabs d2 <= 2 * M + 3 * et) by lra.
  assert (D : Rabs d2 / val (clipped s) <= bpow radix2 950).
  { apply div_le; [exact P|]. apply Rle_trans with (bpow radix2 950 * bpow radix2 (-36)); [|apply Rmult_le_compat_l; [apply bpow_ge_0 | lra]].
    rewrite <- bpow_plus. apply Rle_trans with (bpow radix2 904); [lra | apply bpow_le; lia]. }
  destruct (fdiv_mod _ (clipped s) (bpow radix2 950) N2 P D) as [N3 E4]; [apply bpow_le; lia|]. fold d2 in E4. split; [exact N3|]. split.
  - set (u := val (fdiv _ _)) in *. assert (W : Rabs (u * val (clipped s) - d2) <= ee * Rabs d2 + et * val (clipped s)).
    { replace (u * val (clipped s) - d2) with ((u - d2 / val (clipped s)) * val (clipped s)) by (field; lra). rewrite Rabs_mult, (Rabs_pos_eq (val (clipped s))) by lra.
      eapply Rle_trans; [apply Rmult_le_compat_r; [lra | exact E4]|]. right. field. lra. }
    eapply Rle_trans; [apply (near_trans _ _ _ _ _ W E3)|].
    assert (T1 : et <= ee * ee * val (clipped s)).
    { assert (bpow radix2 (-53) * bpow radix2 (-53) * bpow radix2 (-36) >= et) by (rewrite <- !bpow_plus; apply Rle_ge, bpow_le; lia). rewrite ee_pow in *.
      assert (ee * ee * bpow radix2 (-36) <= ee * ee * val (clipped s)) by (apply Rmult_le_compat_l; nra). lra. }
    assert (Y1 : ee * Rabs d2 <= ee * (2 * M + 3 * et)) by (apply Rmult_le_compat_l; lra).
    assert (Y2 : et * val (clipped s) <= / 1000000 * ee * val (clipped s)) by (apply Rmult_le_compat_r; [lra | apply et_ee]).
    assert (Y3 : ee * ee * val (clipped s) <= / 1000000 * ee * val (clipped s)) by (apply Rmult_le_compat_r; [lra | apply ee_ee]).
    assert (Y4 : ee * et <= 1 * et) by (apply Rmult_le_compat_r; lra). assert (0 <= ee * M) by (apply Rmult_le_pos; lra). lra.
  - pose proof (near_abs _ _ _ E4) as A3. assert (Y : Rabs (d2 / val (clipped s)) = Rabs d2 / val (clipped s)) by (unfold Rdiv; rewrite Rabs_mult, Rabs_inv, (Rabs_pos_eq (val (clipped s))); lra).
    rewrite Y in A3. eapply Rle_trans; [exact A3|]. apply Rle_trans with (2 * bpow radix2 950 + 1).
    + pose proof (Rabs_pos d2). assert (0 <= Rabs d2 / val (clipped s)) by (apply le_div; lra). assert (ee * (Rabs d2 / val (clipped s)) <= 1 * (Rabs d2 / val (clipped s))) by (apply Rmult_le_compat_r; lra). lra.
    + assert (1 <= bpow radix2 950) by (change 1 with (bpow radix2 0); apply bpow_le; lia). apply Rle_trans with (bpow radix2 952); [change 952%Z with (2 + 950)%Z; rewrite (bpow_plus radix2 2 950); change (bpow radix2 2) with 4; lra | apply bpow_le; lia].
Qed.

(** ---- distribution and density at the computed quantile *)
Lemma Phi_near : forall L u, libm_like L -> accurate L -> number u -> Rabs (val u) <= bpow radix2 960 ->
  Rabs (val u) * Rabs (val (quantile_Phi L u) - cdf (val u)) <= 6 * ee * Rabs (val u) + 30 * ee /\ Rabs (val (quantile_Phi L u) - cdf (val u)) <= 36 * ee.
Proof.
  intros L u HL [_ HA] Nu Bu. pose proof ee_small as E. pose proof et_small as T. pose proof et_ee as T'.
  destruct sqrt_2_ok as [Nr Br]. pose proof sqrt2_near as Sr. destruct (neg_num u Nu) as [Nn Vn]. pose proof s2_sq as Q2. pose proof s2_pos as Q0. pose proof (Rabs_pos (val u)) as U0.
  assert (S2 : 1 < sqrt 2 < 3 / 2) by (split; nra).
  assert (D : Rabs (val (fneg u)) / val sqrt_2 <= Rabs (val u)) by (rewrite Vn, Rabs_Ropp; apply div_le; nra).
  destruct (fdiv_mod (fneg u) sqrt_2 (Rabs (val u)) Nn ltac:(lra) D) as [Nw Ew]; [eapply Rle_trans; [exact Bu | apply bpow_le; lia]|].
  unfold quantile_Phi. set (w := fdiv (fneg u) sqrt_2) in *. pose proof (HA w Nw) as Ea. destruct (erfc_range L HL w (not_nan w Nw)) as [Ne Re].
  destruct (half_mul _ Ne) as [_ Vh]. set (e := val (erfc_f L w)) in *. set (r := val sqrt_2) in *.
  assert (E1 : Rabs (rnd (/ 2 * e) - / 2 * e) <= ee * 1 + et) by (apply rerr; rewrite Rabs_pos_eq; lra).
  assert (E2 : Rabs (/ 2 * e - cdf (- (sqrt 2 * val w))) <= 4 * ee).
  { replace (cdf (- (sqrt 2 * val w))) with (/ 2 * erfc (val w)) by (rewrite erfc_cdf; lra). replace (/ 2 * e - / 2 * erfc (val w)) with (/ 2 * (e - erfc (val w))) by ring.
    rewrite Rabs_mult, (Rabs_pos_eq (/ 2)) by lra. assert (bpow radix2 (-50) = 8 * ee) by (unfold ee; change (bpow radix2 (-50)) with (/ 1125899906842624); lra). lra. }
  assert (E3 : Rabs (- (sqrt 2 * val w) - val u) <= 9 / 2 * ee * Rabs (val u) + 2 * et).
  { assert (W1 : Rabs (val w - - val u / r) <= ee * Rabs (val u) + et).
    { rewrite Vn in Ew. eapply Rle_trans; [exact Ew|]. rewrite Rabs_Ropp. assert (Rabs (val u) / r <= Rabs (val u)) by (apply div_le; nra). nra. }
    assert (W2 : Rabs (- val u / r - - val u / sqrt 2) <= 2 * ee * Rabs (val u)).
    { replace (- val u / r - - val u / sqrt 2) with (val u * ((r - sqrt 2) / (r * sqrt 2))) by (field; lra). rewrite Rabs_mult, Rmult_comm. apply Rmult_le_compat_r; [exact U0|].
      unfold Rdiv. rewrite Rabs_mult, Rabs_inv, (Rabs_pos_eq (r * sqrt 2)) by nra. apply Rle_trans with (Rabs (r - sqrt 2) * 1); [|lra].
      apply Rmult_le_compat_l; [apply Rabs_pos|]. rewrite <- Rinv_1. apply Rinv_le_contravar; nra. }
    pose proof (near_trans _ _ _ _ _ W1 W2) as W3.
    replace (- (sqrt 2 * val w) - val u) with (- (sqrt 2 * (val w - - val u / sqrt 2))) by (field; lra). rewrite Rabs_Ropp, Rabs_mult, (Rabs_pos_eq (sqrt 2)) by lra.
    pose proof (Rabs_pos (val w - - val u / sqrt 2)). nra. }
  destruct (cdf_weighted (val u) _ E3) as [F1 F2]. rewrite Vh.
  pose proof (near_trans _ _ _ _ _ E1 E2) as G. assert (G' : Rabs (rnd (/ 2 * e) - cdf (- (sqrt 2 * val w))) <= 6 * ee) by lra. split.
  - apply Rle_trans with (Rabs (val u) * (Rabs (rnd (/ 2 * e) - cdf (- (sqrt 2 * val w))) + Rabs (cdf (- (sqrt 2 * val w)) - cdf (val u)))).
    + apply Rmult_le_compat_l; [exact U0|]. replace (rnd (/ 2 * e) - cdf (val u)) with ((rnd (/ 2 * e) - cdf (- (sqrt 2 * val w))) + (cdf (- (sqrt 2 * val w)) - cdf (val u))) by ring. apply Rabs_triang.
    + rewrite Rmult_plus_distr_l. apply Rplus_le_compat; [|exact F1]. nra.
  - pose proof (near_trans _ _ _ _ _ G' F2). lra.
Qed.
Lemma phi_near : forall L u, libm_like L -> accurate L -> number u -> Rabs (val u) <= bpow radix2 960 -> Rabs (val (quantile_phi L u) - phi (val u)) <= 64 * ee.
Proof.
  intros L u HL [HA _] Nu Bu. pose proof ee_small as E. pose proof et_small as T. pose proof et_ee as T'.
  destruct sqrt_2pi_ok as [Nr Br]. pose proof sqrt2pi_near as Sr. pose proof s2PI_1 as S1.
  destruct (exp_range L HL _ (exponent u (not_nan u Nu))) as [Ne Re].
  assert (Ex : Rabs (val (exp_f L (fmul minus_half (fmul u u))) - exp (- (val u * val u / 2))) <= 23 * ee).
  { destruct (Rle_lt_dec (Rabs (val u)) (bpow radix2 100)) as [Sm|Lg].
    - assert (B : Rabs (val u) * Rabs (val u) <= bpow radix2 200) by (change 200%Z with (100 + 100)%Z; rewrite bpow_plus; pose proof (Rabs_pos (val u)); apply Rmult_le_compat; assumption).
      assert (Sq : Rabs (val u) * Rabs (val u) = val u * val u) by (rewrite <- Rabs_mult, Rabs_pos_eq; nra).
      destruct (fmul_mod u u (Rabs (val u) * Rabs (val u)) Nu Nu ltac:(lra)) as [Nq Eq]; [eapply Rle_trans; [exact B | apply bpow_le; lia]|].
      destruct mhalf_ok as [Nh Vh]. rewrite Sq in *. set (q := fmul u u) in *. pose proof (near_abs _ _ _ Eq) as Aq. rewrite (Rabs_pos_eq (val u * val u)) in Aq by nra.
      assert (U0 : 0 <= val u * val u) by nra. pose proof (bpow_gt_0 radix2 200) as K0. assert (K1 : 1 <= bpow radix2 200) by (change 1 with (bpow radix2 0); apply bpow_le; lia).
      destruct (fmul_mod minus_half q (/ 2 * (val u * val u * (1 + ee) + et)) Nh Nq) as [Nz Ez].
      { rewrite Vh, Rabs_Ropp, (Rabs_pos_eq (/ 2)) by lra. apply Rmult_le_compat_l; lra. }
      { assert (ee * (val u * val u) <= 1 * (val u * val u)) by (apply Rmult_le_compat_r; lra). apply Rle_trans with (2 * bpow radix2 200); [lra|]. eapply Rle_trans; [apply (pow_pos2 200 999); lia | apply bpow_le; lia]. }
      set (z := fmul minus_half q) in *. rewrite Vh in Ez.
      destruct (exponent u (not_nan u Nu)) as [Bad|[_ Zle]]; [fold q in Bad; fold z in Bad; rewrite Bad in Nz; discriminate|]. fold q in Zle. fold z in Zle.
      assert (W : Rabs (val z + val u * val u / 2) <= 11 / 10 * ee * (val u * val u) + 3 * et).
      { assert (W2 : Rabs (- / 2 * val q - - (val u * val u / 2)) <= / 2 * (ee * (val u * val u) + et)).
        { replace (- / 2 * val q - - (val u * val u / 2)) with (- (/ 2 * (val q - val u * val u))) by field. rewrite Rabs_Ropp, Rabs_mult, (Rabs_pos_eq (/ 2)) by lra. lra. }
        pose proof (near_trans _ _ _ _ _ Ez W2) as W3. replace (val z - - (val u * val u / 2)) with (val z + val u * val u / 2) in W3 by ring.
        pose proof ee_ee as Z. assert (Z1 : ee * ee * (val u * val u) <= / 1000000 * ee * (val u * val u)) by (apply Rmult_le_compat_r; lra).
        assert (Z2 : ee * et <= 1 * et) by (apply Rmult_le_compat_r; lra). assert (Z3 : 0 <= ee * (val u * val u)) by (apply Rmult_le_pos; lra). lra. }
      pose proof (exp_weighted (val u) (val z) Zle W) as X. pose proof (HA z Nz Zle) as Y.
      assert (bpow radix2 (-50) = 8 * ee) by (unfold ee; change (bpow radix2 (-50)) with (/ 1125899906842624); lra).
      pose proof (near_trans _ _ _ _ _ Y X). lra.
    - assert (Big : bpow radix2 200 <= val u * val u).
      { replace (val u * val u) with (Rabs (val u) * Rabs (val u)) by (rewrite <- Rabs_mult, Rabs_pos_eq; nra). change 200%Z with (100 + 100)%Z. rewrite bpow_plus.
        pose proof (bpow_gt_0 radix2 100). apply Rmult_le_compat; lra. }
      assert (Z : val (exp_f L (fmul minus_half (fmul u u))) = 0).
      { apply (exp_underflow L HL). destruct (nn_square u (not_nan u Nu)) as [Q _]. destruct mhalf_ok as [N V]. destruct (neg_form _ N ltac:(lra)) as (m & e & b & Em).
        assert (K : 4096 <= bpow radix2 200) by (change 4096 with (bpow radix2 12); apply bpow_le; lia).
        destruct Q as [[A P]|I].
        - destruct (exponent u (not_nan u Nu)) as [Bad|[Nz Zle]]; [left; exact Bad|]. right. split; [exact Nz|]. rewrite (fmul_finite _ _ Nz), V.
          rewrite <- (rnd_F (-1076)) by (apply F64_IZR; cbn; lia). apply rnd_mono. destruct (fmul_number u (not_nan u Nu) A) as [_ S]. rewrite S.
          assert (4096 <= rnd (val u * val u)) by (rewrite <- (rnd_F 4096) by (apply F64_IZR; cbn; lia); apply rnd_mono; lra). lra.
        - left. rewrite I, Em. reflexivity. }
      rewrite Z. replace (0 - exp (- (val u * val u / 2))) with (- exp (- (val u * val u / 2))) by ring. rewrite Rabs_Ropp, Rabs_pos_eq by (left; apply exp_pos).
      pose proof (yexp (val u * val u / 2) ltac:(nra)) as Y. pose proof (exp_pos (- (val u * val u / 2))) as P. set (x := exp (- (val u * val u / 2))) in *.
      assert (K : 2 * 9007199254740992 <= bpow radix2 200) by (change (2 * 9007199254740992) with (IZR 2 * IZR (2 ^ 53)); rewrite <- mult_IZR; change (IZR (2 * 2 ^ 53)) with (bpow radix2 54); apply bpow_le; lia).
      assert (G : 9007199254740992 * x <= 1) by nra. unfold ee. lra. }
  unfold quantile_phi. set (z := exp_f L (fmul minus_half (fmul u u))) in *. set (r := val sqrt_2pi) in *.
  assert (D : 0 <= val z / r <= 1) by (split; [apply le_div; lra | apply div_le; lra]).
  destruct (fdiv_ok z sqrt_2pi Ne) as [_ V]; [fold r; lra | fold r; apply in_range; rewrite Rabs_pos_eq by lra; change 1 with (bpow radix2 0) in D; eapply Rle_trans; [apply D | apply bpow_le; lia]|].
  fold r in V. rewrite V. assert (E1 : Rabs (rnd (val z / r) - val z / r) <= ee * 1 + et) by (apply rerr; rewrite Rabs_pos_eq; lra).
  assert (E2 : Rabs (val z / r - val z / sqrt (2 * PI)) <= 32 * ee).
  { replace (val z / r - val z / sqrt (2 * PI)) with (val z * ((sqrt (2 * PI) - r) / (r * sqrt (2 * PI)))) by (field; lra). rewrite Rabs_mult, (Rabs_pos_eq (val z)) by lra.
    apply Rle_trans with (1 * (32 * ee)); [|lra]. apply Rmult_le_compat; [lra | apply Rabs_pos | lra|].
    unfold Rdiv. rewrite Rabs_mult, Rabs_inv, (Rabs_pos_eq (r * sqrt (2 * PI))) by nra. apply Rle_trans with (Rabs (sqrt (2 * PI) - r) * 1).
    - apply Rmult_le_compat_l; [apply Rabs_pos|]. rewrite <- Rinv_1. apply Rinv_le_contravar; nra.
    - rewrite Rabs_minus_sym. lra. }
  assert (E3 : Rabs (val z / sqrt (2 * PI) - phi (val u)) <= 23 * ee).
  { unfold phi. replace (- / 2 * (val u * val u)) with (- (val u * val u / 2)) by (unfold Rdiv; ring). replace (val z / sqrt (2 * PI) - exp (- (val u * val u / 2)) / sqrt (2 * PI)) with ((val z - exp (- (val u * val u / 2))) / sqrt (2 * PI)) by (field; lra).
    unfold Rdiv at 1. rewrite Rabs_mult, Rabs_inv, (Rabs_pos_eq (sqrt (2 * PI))) by lra. pose proof (Rabs_pos (val z - exp (- (val u * val u / 2)))).
    assert (/ sqrt (2 * PI) <= 1) by (rewrite <- Rinv_1; apply Rinv_le_contravar; lra). assert (0 < / sqrt (2 * PI)) by (apply Rinv_0_lt_compat; lra). nra. }
  pose proof (near_trans _ _ _ _ _ (near_trans _ _ _ _ _ E1 E2) E3). lra.
Qed.

(** ---- the acquisitions *)
Lemma ei_near : forall L par fmin m s, libm_like L -> accurate L -> moderate par -> moderate fmin -> moderate m -> moderate s ->
  number (ei_f L par fmin m s) /\
  Rabs (val (ei_f L par fmin m s) - ei (val fmin - val par) (val m) (val (clipped s))) <= 128 * ee * (size3 fmin m par + val (clipped s)).
Proof.
  intros L par fmin m s HL HA Mp Mf Mm Ms. destruct (quantile_near par fmin m s Mp Mf Mm Ms) as (Nu & Qn & Bu). destruct (clipped_mod s Ms) as (Nc & [Lc Hc] & _).
  unfold ei_f. cbn zeta. set (c := clipped s) in *. set (u := quantile_u par fmin m c) in *. pose proof ee_small as E. pose proof et_small as T. pose proof et_ee as T'.
  destruct (Phi_near L u HL HA Nu Bu) as [P1 P2]. pose proof (phi_near L u HL HA Nu Bu) as P3.
  destruct (Phi_ok L u HL (not_nan u Nu)) as [NP RP]. destruct (phi_ok L u HL (not_nan u Nu)) as [Np Rp]. pose proof (Rabs_pos (val u)) as U0.
  assert (K : bpow radix2 960 <= bpow radix2 1000) by (apply bpow_le; lia). pose proof (bpow_gt_0 radix2 (-36)) as C0.
  assert (K' : 4 * bpow radix2 960 <= bpow radix2 1000) by (apply Rle_trans with (bpow radix2 962); [change 962%Z with (2 + 960)%Z; rewrite bpow_plus; change (bpow radix2 2) with 4; lra | apply bpow_le; lia]).
  assert (K1 : 1 <= bpow radix2 960) by (change 1 with (bpow radix2 0); apply bpow_le; lia).
  destruct (fmul_mod u (quantile_Phi L u) (Rabs (val u)) Nu NP) as [NA EA]; [rewrite (Rabs_pos_eq (val (quantile_Phi L u))) by lra; nra | lra|].
  destruct (mul_unit u _ Nu NP RP) as [_ AA]. set (a := fmul u (quantile_Phi L u)) in *. set (b := quantile_phi L u) in *.
  destruct (fadd_mod a b (Rabs (val u) + 1) NA Np) as [NS ES]; [rewrite (Rabs_pos_eq (val b)) by lra; lra | lra|].
  set (S := fadd a b) in *. pose proof (near_abs _ _ _ ES) as AS. assert (AS' : Rabs (val S) <= 2 * (Rabs (val u) + 1)).
  { assert (Rabs (val a + val b) <= Rabs (val u) + 1) by (eapply Rle_trans; [apply Rabs_triang|]; rewrite (Rabs_pos_eq (val b)); lra). nra. }
  set (X := val fmin - val m - val par) in *. set (M := size3 fmin m par) in *.
  assert (AX : Rabs X <= M).
  { unfold X, M, size3. eapply Rle_trans; [apply Rabs_triang|]. rewrite Rabs_Ropp. apply Rplus_le_compat_r. eapply Rle_trans; [apply Rabs_triang|]. rewrite Rabs_Ropp. lra. }
  assert (M0 : 0 <= M) by (pose proof (Rabs_pos X); lra).
  assert (UC : Rabs (val u) * val c <= 2 * M + val c).
  { pose proof (near_abs _ _ _ Qn) as W. rewrite Rabs_mult, (Rabs_pos_eq (val c)) in W by lra. nra. }
  assert (MB : M <= 3 * bpow radix2 900) by (unfold M, size3; destruct Mp, Mf, Mm; lra).
  assert (K9 : 30 * bpow radix2 900 <= bpow radix2 1000).
  { apply Rle_trans with (bpow radix2 905); [change 905%Z with (5 + 900)%Z; rewrite bpow_plus; change (bpow radix2 5) with 32; pose proof (bpow_gt_0 radix2 900); lra | apply bpow_le; lia]. }
  destruct (fmul_mod c S (2 * (Rabs (val u) * val c + val c)) Nc NS) as [NE EE]; [rewrite (Rabs_pos_eq (val c)) by lra; nra | lra|].
  split; [exact NE|]. set (H := val u * cdf (val u) + phi (val u)).
  assert (D1 : Rabs (val a - val u * cdf (val u)) <= 7 * ee * Rabs (val u) + 31 * ee).
  { assert (W : Rabs (val u * val (quantile_Phi L u) - val u * cdf (val u)) <= 6 * ee * Rabs (val u) + 30 * ee) by (rewrite <- Rmult_minus_distr_l, Rabs_mult; exact P1).
    pose proof (near_trans _ _ _ _ _ EA W). nra. }
  assert (D2 : Rabs (val S - H) <= 8 * ee * Rabs (val u) + 98 * ee).
  { assert (W : Rabs (val a + val b - H) <= 7 * ee * Rabs (val u) + 95 * ee).
    { unfold H. replace (val a + val b - (val u * cdf (val u) + phi (val u))) with ((val a - val u * cdf (val u)) + (val b - phi (val u))) by ring. eapply Rle_trans; [apply Rabs_triang|]. lra. }
    pose proof (near_trans _ _ _ _ _ ES W). nra. }
  assert (D3 : Rabs (val c * val S - val c * H) <= 8 * ee * (Rabs (val u) * val c) + 98 * ee * val c).
  { rewrite <- Rmult_minus_distr_l, Rabs_mult, (Rabs_pos_eq (val c)) by lra. replace (8 * ee * (Rabs (val u) * val c) + 98 * ee * val c) with (val c * (8 * ee * Rabs (val u) + 98 * ee)) by ring.
    apply Rmult_le_compat_l; lra. }
  assert (D4 : Rabs (val c * H - ei (val fmin - val par) (val m) (val c)) <= 6 * ee * M + ee * val c).
  { unfold ei. replace (val fmin - val par - val m) with X by (unfold X; ring). unfold H. rewrite <- Rmult_minus_distr_l, Rabs_mult, (Rabs_pos_eq (val c)) by lra.
    eapply Rle_trans; [apply Rmult_le_compat_l; [lra | apply h_near]|]. rewrite <- (Rabs_pos_eq (val c)) at 1 by lra. rewrite <- Rabs_mult.
    replace (val c * (val u - X / val c)) with (val u * val c - X) by (field; lra). exact Qn. }
  assert (T2 : et <= ee * val c).
  { assert (bpow radix2 (-53) * bpow radix2 (-36) >= et) by (rewrite <- bpow_plus; apply Rle_ge, bpow_le; lia). rewrite ee_pow in *. assert (ee * bpow radix2 (-36) <= ee * val c) by (apply Rmult_le_compat_l; lra). lra. }
  pose proof (near_trans _ _ _ _ _ (near_trans _ _ _ _ _ EE D3) D4) as F. eapply Rle_trans; [exact F|].
  assert (G : ee * (Rabs (val u) * val c) <= ee * (2 * M + val c)) by (apply Rmult_le_compat_l; lra).
  assert (0 <= ee * M) by (apply Rmult_le_pos; lra). assert (0 <= ee * val c) by (apply Rmult_le_pos; lra). lra.
Qed.
Lemma mpi_near : forall L par fmin m s, libm_like L -> accurate L -> moderate par -> moderate fmin -> moderate m -> moderate s ->
  Rabs (val (mpi_f L par fmin m s) - cdf ((val fmin - val par - val m) / val (clipped s))) <= 128 * ee * (1 + size3 fmin m par / val (clipped s)).
Proof.
  intros L par fmin m s HL HA Mp Mf Mm Ms. destruct (quantile_near par fmin m s Mp Mf Mm Ms) as (Nu & Qn & Bu). destruct (clipped_mod s Ms) as (Nc & [Lc Hc] & _).
  unfold mpi_f. set (c := clipped s) in *. set (u := quantile_u par fmin m c) in *. pose proof ee_small as E. destruct (Phi_near L u HL HA Nu Bu) as [_ P2].
  pose proof (bpow_gt_0 radix2 (-36)) as C0. set (M := size3 fmin m par) in *.
  assert (M0 : 0 <= M) by (unfold M, size3; pose proof (Rabs_pos (val fmin)); pose proof (Rabs_pos (val m)); pose proof (Rabs_pos (val par)); lra).
  replace (val fmin - val par - val m) with (val fmin - val m - val par) by ring. set (X := val fmin - val m - val par) in *.
  assert (W : Rabs (val u - X / val c) <= 6 * ee * (M / val c) + ee).
  { replace (val u - X / val c) with ((val u * val c - X) / val c) by (field; lra). unfold Rdiv at 1. rewrite Rabs_mult, Rabs_inv, (Rabs_pos_eq (val c)) by lra.
    apply Rle_trans with ((6 * ee * M + ee * val c) * / val c); [apply Rmult_le_compat_r; [left; apply Rinv_0_lt_compat; lra | exact Qn]|]. right. field. lra. }
  pose proof (cdf_near (val u) (X / val c)) as V. assert (D : 0 <= M / val c) by (apply le_div; lra).
  pose proof (near_trans _ _ _ _ _ P2 (Rle_trans _ _ _ V W)). nra.
Qed.
Lemma lcb_near : forall w m s, moderate m -> number w -> number s -> Rabs (val w * val s) <= bpow radix2 900 ->
  number (lcb_f w m s) /\ Rabs (val (lcb_f w m s) - (- val m + val w * val s)) <= 3 * ee * (Rabs (val m) + Rabs (val w * val s)) + 3 * et.
Proof.
  intros w m s [Nm Bm] Nw Ns B. unfold lcb_f. destruct (neg_num m Nm) as [Nn Vn]. pose proof ee_small as E. pose proof et_small as T.
  assert (K : 4 * bpow radix2 900 <= bpow radix2 1000) by (apply Rle_trans with (bpow radix2 902); [change 902%Z with (2 + 900)%Z; rewrite bpow_plus; change (bpow radix2 2) with 4; lra | apply bpow_le; lia]).
  assert (K1 : 1 <= bpow radix2 900) by (change 1 with (bpow radix2 0); apply bpow_le; lia).
  pose proof (Rabs_pos (val m)). pose proof (Rabs_pos (val w * val s)).
  destruct (fmul_mod w s (Rabs (val w * val s)) Nw Ns) as [N1 E1]; [rewrite Rabs_mult; lra | lra|]. pose proof (near_abs _ _ _ E1) as A1.
  destruct (fadd_mod (fneg m) (fmul w s) (Rabs (val m) + Rabs (val w * val s) * (1 + ee) + et) Nn N1) as [N2 E2]; [rewrite Vn, Rabs_Ropp; lra | nra|].
  split; [exact N2|]. rewrite Vn in E2.
  assert (W : Rabs (- val m + val (fmul w s) - (- val m + val w * val s)) <= ee * Rabs (val w * val s) + et) by (replace (- val m + val (fmul w s) - (- val m + val w * val s)) with (val (fmul w s) - val w * val s) by ring; exact E1).
  pose proof (near_trans _ _ _ _ _ E2 W). pose proof ee_ee as Z. set (q := Rabs (val w * val s)) in *.
  assert (ee * ee * q <= / 1000000 * ee * q) by (apply Rmult_le_compat_r; lra). assert (ee * et <= 1 * et) by (apply Rmult_le_compat_r; lra).
  assert (0 <= ee * q) by (apply Rmult_le_pos; lra). assert (0 <= ee * Rabs (val m)) by (apply Rmult_le_pos; lra). lra.
Qed.
Lemma rounded_accurate : forall L, correctly_rounded L -> accurate L.
Proof.
  intros L (E & _ & G & _). pose proof ee_small as Ee. pose proof et_small as T. pose proof et_ee as T'.
  assert (B : bpow radix2 (-50) = 8 * ee) by (unfold ee; change (bpow radix2 (-50)) with (/ 1125899906842624); lra). change nearest with rnd in *. split.
  - intros x N V. destruct (E x N V) as [_ ->]. rewrite B. eapply Rle_trans; [apply (rerr _ 1)|lra]. rewrite Rabs_pos_eq by (left; apply exp_pos). now apply exp_le1.
  - intros x N. destruct (G x N) as [_ ->]. rewrite B. eapply Rle_trans; [apply (rerr _ 2)|lra]. rewrite erfc_cdf.
    pose proof (cdf_pos (- (sqrt 2 * val x))). pose proof (cdf_lt_1 (- (sqrt 2 * val x))). rewrite Rabs_pos_eq; lra.
Qed.
Lemma tenth10_val : val tenth10 = floor10.
Proof. apply (lit_ok 7737125245533627 (-86)); [cbn; lia | lia]. Qed.
Lemma floor10_near : Rabs (floor10 - / 10000000000) <= bpow radix2 (-87).
Proof.
  unfold floor10. change (bpow radix2 (-86)) with (/ 77371252455336267181195264). change (bpow radix2 (-87)) with (/ 154742504910672534362390528). apply Rabs_le. lra.
Qed.

(** ---- a correctly rounded library exists *)
Definition to_float (r : R) : float :=
  binary_normalize 53 1024 prec53 emax1024 mode_NE (Ztrunc (scaled_mantissa radix2 (FLT_exp (-1074) 53) (rnd r))) (cexp radix2 (FLT_exp (-1074) 53) (rnd r)) false.
Lemma to_float_ok : forall r, Rabs (rnd r) < bpow radix2 1024 -> number (to_float r) /\ val (to_float r) = rnd r.
Proof.
  intros r H. unfold to_float. set (m := Ztrunc _). set (e := cexp _ _ _). pose proof (binary_normalize_correct 53 1024 prec53 emax1024 mode_NE m e false) as B. cbv zeta in B.
  assert (Fr : F64 (rnd r)) by (apply generic_format_round; [apply FLT_exp_valid; red; lia | apply valid_rnd_N]).
  assert (E : F2R (Float radix2 m e) = rnd r) by (symmetry; exact Fr).
  change (round radix2 (SpecFloat.fexp 53 1024) (round_mode mode_NE) (F2R (Float radix2 m e))) with (rnd (F2R (Float radix2 m e))) in B.
  rewrite E, (rnd_F _ Fr), Rlt_bool_true in B by exact H. destruct B as (B1 & B2 & _). split; assumption.
Qed.
Definition exact_libm : libm := mk_libm (fun x => match x with B754_infinity true => f0 | _ => to_float (exp (val x)) end)
  (fun x => match x with B754_infinity true => of_Z 2 | B754_infinity false => f0 | _ => to_float (erfc (val x)) end).
Lemma exact_rounded : correctly_rounded exact_libm.
Proof.
  destruct f0_ok as [Z0 V0]. destruct (of_Z_ok 2 ltac:(cbn; lia)) as [Z2 V2].
  assert (K : forall r, 0 <= r <= 2 -> number (to_float r) /\ val (to_float r) = nearest r).
  { intros r H. apply to_float_ok. apply in_range. rewrite Rabs_pos_eq by lra. apply Rle_trans with 2; [lra|]. change 2 with (bpow radix2 1). apply bpow_le. lia. }
  unfold exact_libm, correctly_rounded. cbn [exp_f erfc_f]. split; [|split; [split; assumption | split; [|split; split; assumption]]].
  - intros x N V. assert (0 <= exp (val x) <= 2) by (pose proof (exp_pos (val x)); pose proof (exp_le1 _ V); lra). destruct x as [b|b| |b m e h]; try discriminate N; now apply K.
  - intros x N. assert (0 <= erfc (val x) <= 2) by (rewrite erfc_cdf; pose proof (cdf_pos (- (sqrt 2 * val x))); pose proof (cdf_lt_1 (- (sqrt 2 * val x))); lra).
    destruct x as [b|b| |b m e h]; try discriminate N; now apply K.
Qed.
