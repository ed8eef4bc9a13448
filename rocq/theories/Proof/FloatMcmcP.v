(** Integrated acquisitions in double precision: proofs. *)
From Coq Require Import List ZArith Bool Reals Lra Lia Psatz.
From Flocq Require Import Core Relative IEEE754.BinarySingleNaN.
From Verif.Model Require Import Py Float FloatStop FloatCons FloatAcq FloatMcmc AcqR.
From Verif.Spec Require Import FloatSpec FloatStopSpec FloatConsSpec RSpec FloatAcqSpec FloatAccSpec FloatNormSpec FloatMcmcSpec.
From Verif.Proof Require Import FloatP FloatStopP FloatConsP FloatCostP GaussP AcqP FloatAcqP FloatAccA FloatAccP FloatLPP FloatNormP.
Import ListNotations.
Local Open Scope R_scope.
Notation average := FloatNormSpec.average.

Lemma count_real : forall {A} (qs : list A), counted qs -> number (of_Z (Z.of_nat (length qs))) /\ val (of_Z (Z.of_nat (length qs))) = INR (length qs) /\ 1 <= INR (length qs) <= bpow radix2 40.
Proof.
  intros A qs [NE H]. destruct (of_Z_ok (Z.of_nat (length qs))) as [N V]; [cbn in *; lia|]. rewrite <- INR_IZR_INZ in V. split; [exact N|]. split; [exact V|]. split.
  - destruct qs; [congruence|]. cbn [length]. rewrite S_INR. pose proof (pos_INR (length qs)). lra.
  - rewrite INR_IZR_INZ. change (bpow radix2 40) with (IZR (2 ^ 40)). now apply IZR_le.
Qed.
Lemma zero_plus : forall v, number v -> number (fadd f0 v) /\ val (fadd f0 v) = val v.
Proof.
  intros v N. destruct f0_ok as [Z0 V0]. assert (R : rnd (val f0 + val v) = val v) by (rewrite V0, Rplus_0_l; apply round_generic; [apply valid_rnd_N | apply F64_val]).
  destruct (fadd_ok f0 v Z0 N) as [M W]; [rewrite R; apply abs_B2R_lt_emax|]. split; [exact M|]. now rewrite W.
Qed.
Lemma samples_near : forall vs, counted vs -> (forall v, In v vs -> number v /\ Rabs (val v) <= bpow radix2 950) ->
  number (samples_mean vs) /\ Rabs (val (samples_mean vs) - average (map val vs)) <= 8 * (INR (length vs) * ee) * average (map (fun v => Rabs (val v)) vs) + et.
Proof.
  intros vs C H. destruct (count_real vs C) as (Nn & Vn & [L1 L2]). pose proof ee_small as E. pose proof et_small as T.
  destruct vs as [|v r]; [destruct C; congruence|]. destruct (zero_plus v) as [N0 V0]; [apply H; now left|].
  assert (A : added (fadd f0 v :: r) (fold_left fadd (v :: r) f0)) by (cbn [fold_left]; apply (fold_added r [fadd f0 v]); [discriminate | apply added_one]).
  assert (EB : big_l (fadd f0 v :: r) = big_l (v :: r)) by (unfold big_l; cbn [map rsum]; now rewrite V0).
  assert (ES : rsum (map val (fadd f0 v :: r)) = rsum (map val (v :: r))) by (cbn [map rsum]; now rewrite V0).
  assert (EL : length (fadd f0 v :: r) = length (v :: r)) by reflexivity.
  assert (H' : forall y, In y (fadd f0 v :: r) -> number y) by (intros y [<-|Hy]; [exact N0 | apply H; now right]).
  pose proof (sum_error _ _ A H') as Q. rewrite EB, ES, EL in Q. clear EB ES EL A H' N0 V0.
  set (vs := v :: r) in *. clearbody vs. set (n := INR (length vs)) in *.
  assert (Bm : big_l vs <= bpow radix2 990).
  { apply Rle_trans with (INR (length vs) * bpow radix2 950); [apply big_bound; intros; now apply H|]. change 990%Z with (40 + 950)%Z. rewrite bpow_plus. apply Rmult_le_compat_r; [apply bpow_ge_0 | exact L2]. }
  assert (E40 : bpow radix2 40 * ee = / 8192) by (unfold ee; change (bpow radix2 40) with 1099511627776; lra).
  assert (nE : n * ee <= / 8192) by (rewrite <- E40; apply Rmult_le_compat_r; lra).
  pose proof (big_pos vs) as B1. assert (K : bpow radix2 990 <= bpow radix2 999) by (apply bpow_le; lia).
  destruct Q as [NS VS]; [exact nE | lra|]. unfold samples_mean. set (S := fold_left fadd vs f0) in *. fold (big_l vs).
  change (rsum (map (fun v => Rabs (val v)) vs)) with (big_l vs). set (B := big_l vs) in *.
  assert (P : Rabs (rsum (map val vs)) <= B).
  { rewrite <- (Rminus_0_r (rsum (map val vs))). replace 0 with (rsum (map (fun _ : float => 0) vs)) by (rewrite rsum_const; ring). apply rsum_abs. intros. rewrite Rminus_0_r. lra. }
  assert (nB : n * ee * B <= / 8192 * B) by (apply Rmult_le_compat_r; lra).
  pose proof (near_abs _ _ _ VS) as AS. assert (AS' : Rabs (val S) <= 2 * B) by lra.
  assert (D : Rabs (val S) / n <= 2 * B) by (apply div_le; [lra|]; nra).
  assert (K2 : 2 * B <= bpow radix2 1000) by (apply Rle_trans with (2 * bpow radix2 990); [lra | change 1000%Z with (10 + 990)%Z; rewrite bpow_plus; change (bpow radix2 10) with 1024; pose proof (bpow_gt_0 radix2 990); lra]).
  destruct (fdiv_mod S (of_Z (Z.of_nat (length vs))) (2 * B) NS) as [NQ VQ]; [rewrite Vn; lra | rewrite Vn; exact D | exact K2|]. split; [exact NQ|].
  rewrite Vn in VQ. unfold FloatNormSpec.average. rewrite !map_length. change (rsum (map (fun v0 => Rabs (val v0)) vs)) with B. fold n.
  assert (D2 : Rabs (val S / n - rsum (map val vs) / n) <= 2 * (n * ee) * B / n).
  { replace (val S / n - rsum (map val vs) / n) with ((val S - rsum (map val vs)) / n) by (field; lra). unfold Rdiv at 1. rewrite Rabs_mult, Rabs_inv, (Rabs_pos_eq n) by lra.
    apply Rmult_le_compat_r; [left; apply Rinv_0_lt_compat; lra | exact VS]. }
  pose proof (near_trans _ _ _ _ _ VQ D2) as F. eapply Rle_trans; [exact F|].
  assert (Q1 : Rabs (val S) / n <= 2 * (B / n)) by (replace (2 * (B / n)) with (2 * B * / n) by (field; lra); apply Rmult_le_compat_r; [left; apply Rinv_0_lt_compat; lra | exact AS']).
  assert (Q2 : 0 <= B / n) by (apply le_div; lra). replace (2 * (n * ee) * B / n) with (2 * (n * ee) * (B / n)) by (field; lra). set (a := B / n) in *.
  assert (Q3 : ee * (Rabs (val S) / n) <= ee * (2 * a)) by (apply Rmult_le_compat_l; lra).
  assert (Q4 : ee * a <= n * ee * a) by (apply Rmult_le_compat_r; [exact Q2|]; rewrite <- (Rmult_1_l ee) at 1; apply Rmult_le_compat_r; lra). assert (Q5 : 0 <= ee * a) by (apply Rmult_le_pos; lra). lra.
Qed.
Lemma average_le : forall {A} (f g : A -> R) l, counted l -> (forall a, In a l -> f a <= g a) -> average (map f l) <= average (map g l).
Proof. intros A f g l C H. destruct (count_real l C) as (_ & _ & [P _]). unfold FloatNormSpec.average. rewrite !map_length. apply Rmult_le_compat_r; [left; apply Rinv_0_lt_compat; lra | now apply rsum_le]. Qed.
Lemma average_scale : forall {A} (f : A -> R) c l, average (map (fun a => c * f a) l) = c * average (map f l).
Proof. intros A f c l. unfold FloatNormSpec.average. rewrite !map_length, rsum_scale. unfold Rdiv. ring. Qed.
Lemma average_plus : forall {A} (f g : A -> R) l, average (map (fun a => f a + g a) l) = average (map f l) + average (map g l).
Proof. intros A f g l. unfold FloatNormSpec.average. rewrite !map_length, rsum_plus. unfold Rdiv. ring. Qed.
Lemma average_const : forall {A} c (l : list A), counted l -> average (map (fun _ => c) l) = c.
Proof. intros A c l C. destruct (count_real l C) as (_ & _ & [P _]). unfold FloatNormSpec.average. rewrite map_length, rsum_const. field. lra. Qed.
Lemma average_abs : forall {A} (f g h : A -> R) l, counted l -> (forall a, In a l -> Rabs (f a - g a) <= h a) -> Rabs (average (map f l) - average (map g l)) <= average (map h l).
Proof.
  intros A f g h l C H. destruct (count_real l C) as (_ & _ & [P _]). unfold FloatNormSpec.average. rewrite !map_length.
  replace (rsum (map f l) / INR (length l) - rsum (map g l) / INR (length l)) with ((rsum (map f l) - rsum (map g l)) * / INR (length l)) by (field; lra).
  rewrite Rabs_mult, Rabs_inv, (Rabs_pos_eq (INR (length l))) by lra. apply Rmult_le_compat_r; [left; apply Rinv_0_lt_compat; lra | now apply rsum_abs].
Qed.
(** the mean of values that are near to given numbers *)
Lemma integrated : forall {A} (f : A -> float) (t e g : A -> R) qs, counted qs ->
  (forall q, In q qs -> number (f q) /\ Rabs (val (f q) - t q) <= e q /\ Rabs (val (f q)) <= g q /\ g q <= bpow radix2 950) ->
  number (samples_mean (map f qs)) /\
  Rabs (val (samples_mean (map f qs)) - average (map t qs)) <= average (map e qs) + 8 * (INR (length qs) * ee) * average (map g qs) + et.
Proof.
  intros A f t e g qs C H. assert (C' : counted (map f qs)) by (destruct C as [NE L]; split; [now destruct qs | now rewrite map_length]).
  destruct (samples_near (map f qs) C') as [N E].
  - intros v Hv. apply in_map_iff in Hv. destruct Hv as (q & <- & Hq). destruct (H q Hq) as (N & _ & G1 & G2). split; [exact N | lra].
  - split; [exact N|]. rewrite !map_map, map_length in E. destruct (count_real qs C) as (_ & _ & [P _]). pose proof ee_small as Es.
    assert (D : Rabs (average (map (fun q => val (f q)) qs) - average (map t qs)) <= average (map e qs)) by (apply average_abs; [exact C | intros; now apply H]).
    assert (G : average (map (fun q => Rabs (val (f q))) qs) <= average (map g qs)) by (apply average_le; [exact C | intros; now apply H]).
    pose proof (near_trans _ _ _ _ _ E D) as F. eapply Rle_trans; [exact F|].
    assert (8 * (INR (length qs) * ee) * average (map (fun q => Rabs (val (f q))) qs) <= 8 * (INR (length qs) * ee) * average (map g qs)) by (apply Rmult_le_compat_l; [nra | exact G]). lra.
Qed.

(** ---- the samples *)
Lemma ei_sample_near : forall L par q, libm_like L -> accurate L -> moderate par -> moderate_sample q ->
  number (ei_sample_f L par q) /\
  Rabs (val (ei_sample_f L par q) - (ei (val (s_fmin q) - val par) (val (s_mean q)) (val (clipped (s_dev q))) +
    2 * val par * cdf ((val (s_fmin q) - val par - val (s_mean q)) / val (clipped (s_dev q))))) <=
    128 * ee * (reach par q + val (clipped (s_dev q)) + Rabs (val par) * (reach par q / val (clipped (s_dev q)))) /\
  Rabs (val (ei_sample_f L par q)) <= 4 * (reach par q + val (clipped (s_dev q))).
Proof.
  intros L par [m s fmin] HL HA Mp (Mm & Ms & Mf). cbn [s_mean s_dev s_fmin] in *. unfold reach, ei_sample_f. cbn [s_mean s_dev s_fmin]. cbn zeta.
  destruct (quantile_near par fmin m s Mp Mf Mm Ms) as (Nu & Qn & Bu). destruct (clipped_mod s Ms) as (Nc & [Lc Hc] & _).
  set (c := clipped s) in *. set (u := quantile_u par fmin m c) in *. pose proof ee_small as E. pose proof et_small as T. pose proof et_ee as T'.
  destruct (Phi_near L u HL HA Nu Bu) as [_ P2]. pose proof (phi_near L u HL HA Nu Bu) as P3.
  destruct (Phi_ok L u HL (not_nan u Nu)) as [NP RP]. destruct (phi_ok L u HL (not_nan u Nu)) as [Np Rp].
  pose proof (bpow_gt_0 radix2 (-36)) as C0. assert (C1 : 0 < val c) by lra.
  set (X := val fmin - val m - val par) in *. set (M := size3 fmin m par) in *.
  pose proof (Rabs_pos (val fmin)) as A1. pose proof (Rabs_pos (val m)) as A2. pose proof (Rabs_pos (val par)) as A3.
  assert (AX : Rabs X <= M).
  { unfold X, M, size3. eapply Rle_trans; [apply Rabs_triang|]. rewrite Rabs_Ropp. apply Rplus_le_compat_r. eapply Rle_trans; [apply Rabs_triang|]. rewrite Rabs_Ropp. lra. }
  assert (M0 : 0 <= M) by (pose proof (Rabs_pos X); lra). assert (Mpar : Rabs (val par) <= M) by (unfold M, size3; lra).
  assert (MB : M <= 3 * bpow radix2 900) by (unfold M, size3; destruct Mp, Mf, Mm; lra).
  assert (K9 : 30 * bpow radix2 900 <= bpow radix2 1000).
  { apply Rle_trans with (bpow radix2 905); [change 905%Z with (5 + 900)%Z; rewrite bpow_plus; change (bpow radix2 5) with 32; pose proof (bpow_gt_0 radix2 900); lra | apply bpow_le; lia]. }
  assert (K1 : 1 <= bpow radix2 900) by (change 1 with (bpow radix2 0); apply bpow_le; lia).
  assert (T2 : et <= / 1000 * ee * val c).
  { assert (bpow radix2 (-10) * bpow radix2 (-53) * bpow radix2 (-36) >= et) by (rewrite <- !bpow_plus; apply Rle_ge, bpow_le; lia). rewrite ee_pow in *. change (bpow radix2 (-10)) with (/ 1024) in *.
    assert (ee * bpow radix2 (-36) <= ee * val c) by (apply Rmult_le_compat_l; lra). lra. }
  assert (et1 : et <= 1) by lra. assert (eM : 0 <= ee * M) by (apply Rmult_le_pos; lra). assert (ec : 0 <= ee * val c) by (apply Rmult_le_pos; lra).
  assert (eM1 : ee * M <= / 1000000 * M) by (apply Rmult_le_compat_r; lra). assert (ec1 : ee * val c <= / 1000000 * val c) by (apply Rmult_le_compat_r; lra).
  destruct Mp as [Npar Bpar]. destruct Mf as [Nf Bf]. destruct Mm as [Nm Bm].
  (* fmin - m + jitter *)
  assert (S12 : Rabs (val fmin) + Rabs (val m) <= M) by (unfold M, size3; lra).
  destruct (fsub_mod fmin m M Nf Nm S12) as [N1 E1]; [lra|]. set (d := fsub fmin m) in *.
  pose proof (near_abs _ _ _ E1) as B1. assert (B1' : Rabs (val fmin - val m) <= Rabs (val fmin) + Rabs (val m)) by (eapply Rle_trans; [apply Rabs_triang|]; rewrite Rabs_Ropp; lra).
  assert (B2 : Rabs (val d) + Rabs (val par) <= 2 * M + val c) by (unfold M, size3 in *; lra).
  destruct (fadd_mod d par (2 * M + val c) N1 Npar B2) as [N2 E2]; [lra|]. set (w := fadd d par) in *.
  assert (E3 : Rabs (val w - (X + 2 * val par)) <= 3 * (ee * M) + 2 * (ee * val c)).
  { assert (W : Rabs (val d + val par - (X + 2 * val par)) <= ee * M + et) by (unfold X; replace (val d + val par - (val fmin - val m - val par + 2 * val par)) with (val d - (val fmin - val m)) by ring; exact E1).
    pose proof (near_trans _ _ _ _ _ E2 W). lra. }
  pose proof (near_abs _ _ _ E2) as B3. assert (B3' : Rabs (val d + val par) <= Rabs (val d) + Rabs (val par)) by apply Rabs_triang.
  assert (Aw : Rabs (val w) <= 3 * M + 2 * val c) by lra.
  assert (Aw' : Rabs (val w) <= 2 * M + / 1000 * val c).
  { pose proof (near_abs _ _ _ E3) as W. assert (Rabs (X + 2 * val par) <= M).
    { replace (X + 2 * val par) with (val fmin - val m + val par) by (unfold X; ring). eapply Rle_trans; [apply Rabs_triang|]. unfold M, size3. lra. }
    lra. }
  (* times Phi *)
  destruct (mul_unit w _ N2 NP RP) as [_ Aa].
  destruct (fmul_mod w (quantile_Phi L u) (Rabs (val w)) N2 NP) as [NA EA].
  { rewrite (Rabs_pos_eq (val (quantile_Phi L u))) by lra. rewrite <- (Rmult_1_r (Rabs (val w))) at 2. apply Rmult_le_compat_l; [apply Rabs_pos | lra]. } { lra. }
  set (a := fmul w (quantile_Phi L u)) in *.
  assert (eW : ee * Rabs (val w) <= 2 * (ee * M) + / 1000 * (ee * val c)) by (replace (2 * (ee * M) + / 1000 * (ee * val c)) with (ee * (2 * M + / 1000 * val c)) by ring; apply Rmult_le_compat_l; lra).
  assert (D1 : Rabs (val a - val w * cdf (val u)) <= 74 * (ee * M) + ee * val c).
  { assert (W : Rabs (val w * val (quantile_Phi L u) - val w * cdf (val u)) <= 36 * (ee * Rabs (val w))).
    { rewrite <- Rmult_minus_distr_l, Rabs_mult. replace (36 * (ee * Rabs (val w))) with (Rabs (val w) * (36 * ee)) by ring. apply Rmult_le_compat_l; [apply Rabs_pos | exact P2]. }
    pose proof (near_trans _ _ _ _ _ EA W). lra. }
  (* s * phi *)
  destruct (mul_unit c _ Nc Np ltac:(lra)) as [_ Ab]. rewrite (Rabs_pos_eq (val c)) in Ab by lra.
  destruct (fmul_mod c (quantile_phi L u) (val c) Nc Np) as [NB EB].
  { rewrite (Rabs_pos_eq (val c)), (Rabs_pos_eq (val (quantile_phi L u))) by lra. rewrite <- (Rmult_1_r (val c)) at 2. apply Rmult_le_compat_l; lra. } { lra. }
  set (b := fmul c (quantile_phi L u)) in *.
  assert (D2 : Rabs (val b - val c * phi (val u)) <= 66 * (ee * val c)).
  { assert (W : Rabs (val c * val (quantile_phi L u) - val c * phi (val u)) <= 64 * (ee * val c)).
    { rewrite <- Rmult_minus_distr_l, Rabs_mult, (Rabs_pos_eq (val c)) by lra. replace (64 * (ee * val c)) with (val c * (64 * ee)) by ring. apply Rmult_le_compat_l; [lra | exact P3]. }
    pose proof (near_trans _ _ _ _ _ EB W). lra. }
  (* the sum *)
  assert (AB : Rabs (val a) + Rabs (val b) <= 2 * M + 2 * val c) by lra.
  destruct (fadd_mod a b (2 * M + 2 * val c) NA NB AB) as [NS ES]; [lra|]. set (S := fadd a b) in *. split; [exact NS|].
  assert (D3 : Rabs (val S - (val w * cdf (val u) + val c * phi (val u))) <= 76 * (ee * M) + 70 * (ee * val c)).
  { assert (W : Rabs (val a + val b - (val w * cdf (val u) + val c * phi (val u))) <= 74 * (ee * M) + 67 * (ee * val c)).
    { replace (val a + val b - (val w * cdf (val u) + val c * phi (val u))) with ((val a - val w * cdf (val u)) + (val b - val c * phi (val u))) by ring. eapply Rle_trans; [apply Rabs_triang|]. lra. }
    pose proof (near_trans _ _ _ _ _ ES W). lra. }
  split.
  - set (H := val u * cdf (val u) + phi (val u)). pose proof (cdf_pos (val u)) as Q0. pose proof (cdf_lt_1 (val u)) as Q1.
    assert (D4 : Rabs (val w * cdf (val u) + val c * phi (val u) - (val c * H + 2 * val par * cdf (val u))) <= 9 * (ee * M) + 3 * (ee * val c)).
    { unfold H. replace (val w * cdf (val u) + val c * phi (val u) - (val c * (val u * cdf (val u) + phi (val u)) + 2 * val par * cdf (val u))) with (((val w - (X + 2 * val par)) - (val u * val c - X)) * cdf (val u)) by ring.
      rewrite Rabs_mult, (Rabs_pos_eq (cdf (val u))) by lra. assert (W : Rabs ((val w - (X + 2 * val par)) - (val u * val c - X)) <= 9 * (ee * M) + 3 * (ee * val c)).
      { eapply Rle_trans; [apply Rabs_triang|]. rewrite Rabs_Ropp. lra. }
      eapply Rle_trans; [apply Rmult_le_compat_l; [apply Rabs_pos | left; exact Q1]|]. lra. }
    assert (D5 : Rabs (val c * H - ei (val fmin - val par) (val m) (val c)) <= 6 * ee * M + ee * val c).
    { unfold ei. replace (val fmin - val par - val m) with X by (unfold X; ring). unfold H. rewrite <- Rmult_minus_distr_l, Rabs_mult, (Rabs_pos_eq (val c)) by lra.
      eapply Rle_trans; [apply Rmult_le_compat_l; [lra | apply h_near]|]. rewrite <- (Rabs_pos_eq (val c)) at 1 by lra. rewrite <- Rabs_mult.
      replace (val c * (val u - X / val c)) with (val u * val c - X) by (field; lra). exact Qn. }
    replace (val fmin - val par - val m) with X by (unfold X; ring).
    assert (D6 : Rabs (cdf (val u) - cdf (X / val c)) <= 6 * ee * (M / val c) + ee).
    { eapply Rle_trans; [apply cdf_near|]. replace (val u - X / val c) with ((val u * val c - X) / val c) by (field; lra). unfold Rdiv at 1. rewrite Rabs_mult, Rabs_inv, (Rabs_pos_eq (val c)) by lra.
      apply Rle_trans with ((6 * ee * M + ee * val c) * / val c); [apply Rmult_le_compat_r; [left; apply Rinv_0_lt_compat; lra | exact Qn]|]. right. field. lra. }
    assert (D7 : Rabs (val c * H + 2 * val par * cdf (val u) - (ei (val fmin - val par) (val m) (val c) + 2 * val par * cdf (X / val c))) <= 8 * (ee * M) + ee * val c + 12 * (ee * (Rabs (val par) * (M / val c)))).
    { replace (val c * H + 2 * val par * cdf (val u) - (ei (val fmin - val par) (val m) (val c) + 2 * val par * cdf (X / val c))) with ((val c * H - ei (val fmin - val par) (val m) (val c)) + 2 * (val par * (cdf (val u) - cdf (X / val c)))) by ring.
      eapply Rle_trans; [apply Rabs_triang|]. rewrite !Rabs_mult, (Rabs_pos_eq 2) by lra.
      assert (W : Rabs (val par) * Rabs (cdf (val u) - cdf (X / val c)) <= Rabs (val par) * (6 * ee * (M / val c) + ee)) by (apply Rmult_le_compat_l; lra).
      assert (W2 : ee * Rabs (val par) <= ee * M) by (apply Rmult_le_compat_l; lra). lra. }
    assert (D8 : 0 <= ee * (Rabs (val par) * (M / val c))) by (apply Rmult_le_pos; [lra|]; apply Rmult_le_pos; [lra | apply le_div; lra]).
    pose proof (near_trans _ _ _ _ _ (near_trans _ _ _ _ _ D3 D4) D7). lra.
  - pose proof (near_abs _ _ _ ES) as W. assert (Rabs (val a + val b) <= Rabs (val a) + Rabs (val b)) by apply Rabs_triang. lra.
Qed.
