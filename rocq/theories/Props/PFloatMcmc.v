(** The acquisitions integrated over hyper-parameter samples, in double precision. *)
From Coq Require Import List ZArith Bool Reals Lra Lia.
From Flocq Require Import Core IEEE754.BinarySingleNaN.
From Verif.Model Require Import Py Float FloatStop FloatCons FloatAcq FloatMcmc AcqR.
From Verif.Spec Require Import FloatSpec FloatStopSpec RSpec FloatAcqSpec FloatAccSpec FloatNormSpec FloatMcmcSpec.
From Verif.Proof Require Import FloatP FloatStopP FloatConsP GaussP AcqP FloatAcqP FloatAccA FloatAccP FloatLPP FloatNormP FloatMcmcP.
From Verif.Props Require Import PFloatAcc.
Import ListNotations.
Local Open Scope R_scope.

Lemma clipped_dev : forall q, moderate_sample q -> val (clipped (s_dev q)) = dev q /\ bpow radix2 (-36) <= dev q <= bpow radix2 900.
Proof. intros q (_ & Ms & _). destruct (clipped_mod _ Ms) as (_ & B & V). rewrite tenth10_val in V. unfold dev. now rewrite <- V. Qed.
Lemma reach_bound : forall par q, moderate par -> moderate_sample q -> 0 <= reach par q <= 3 * bpow radix2 900.
Proof. intros par q [_ Bp] ([_ Bm] & _ & [_ Bf]). unfold reach, size3. pose proof (Rabs_pos (val (s_fmin q))). pose proof (Rabs_pos (val (s_mean q))). pose proof (Rabs_pos (val par)). lra. Qed.
Lemma pow_ee : bpow radix2 (-45) = 256 * ee /\ bpow radix2 (-48) = 32 * ee /\ bpow radix2 (-50) = 8 * ee.
Proof. unfold ee. change (bpow radix2 (-45)) with (/ 35184372088832). change (bpow radix2 (-48)) with (/ 281474976710656). change (bpow radix2 (-50)) with (/ 1125899906842624). repeat split; lra. Qed.
Lemma et_dev : forall d, bpow radix2 (-36) <= d -> et <= ee * d.
Proof. intros d H. assert (bpow radix2 (-53) * bpow radix2 (-36) >= et) by (rewrite <- bpow_plus; apply Rle_ge, bpow_le; lia). rewrite ee_pow in *. pose proof ee_small. assert (ee * bpow radix2 (-36) <= ee * d) by (apply Rmult_le_compat_l; lra). lra. Qed.

(** C136, integrated expected improvement: with predictions of size at most 2^900 from at most 2^40 samples and a library accurate to 2^-50, the
    computed value is a number.  It is near to the average over the samples of the expectation of the improvement over the minimum less the jitter, plus
    twice the jitter times the average probability of such an improvement (which the code adds, C49): within 2^-45 + n 2^-48 times the average size. *)
Theorem C136_ei : forall L par qs, libm_like L -> accurate L -> moderate par -> counted qs -> (forall q, In q qs -> moderate_sample q) ->
  number (ei_mcmc_f L par qs) /\
  exists E P : sample_f -> R,
    (forall q, In q qs -> expectation (val (s_mean q)) (dev q) (improvement (val (s_fmin q) - val par)) (E q) /\
                          probability_le (val (s_mean q)) (dev q) (val (s_fmin q) - val par) (P q)) /\
    Rabs (val (ei_mcmc_f L par qs) - (average (map E qs) + 2 * val par * average (map P qs))) <=
      (bpow radix2 (-45) + INR (length qs) * bpow radix2 (-48)) * average (map (fun q => reach par q + dev q + Rabs (val par) * (reach par q / dev q)) qs).
Proof.
  intros L par qs HL HA Mp C H. pose proof ee_small as Es. pose proof et_small as Et. destruct pow_ee as (W45 & W48 & _).
  set (E := fun q => ei (val (s_fmin q) - val par) (val (s_mean q)) (dev q)). set (P := fun q => cdf ((val (s_fmin q) - val par - val (s_mean q)) / dev q)).
  set (g := fun q => reach par q + dev q + Rabs (val par) * (reach par q / dev q)).
  assert (G : forall q, In q qs -> bpow radix2 (-36) <= dev q /\ reach par q + dev q <= g q /\ 0 <= g q).
  { intros q Hq. destruct (clipped_dev q (H q Hq)) as [_ [D _]]. pose proof (reach_bound par q Mp (H q Hq)) as R. pose proof (bpow_gt_0 radix2 (-36)). split; [exact D|].
    assert (0 <= Rabs (val par) * (reach par q / dev q)) by (apply Rmult_le_pos; [apply Rabs_pos | apply le_div; lra]). unfold g. lra. }
  destruct (integrated (ei_sample_f L par) (fun q => E q + 2 * val par * P q) (fun q => 128 * ee * g q) (fun q => 4 * (reach par q + dev q)) qs C) as [N B].
  { intros q Hq. destruct (clipped_dev q (H q Hq)) as [V [D1 D2]]. destruct (ei_sample_near L par q HL HA Mp (H q Hq)) as (N & B & S). rewrite V in *.
    split; [exact N|]. split; [exact B|]. split; [exact S|]. pose proof (reach_bound par q Mp (H q Hq)) as R. apply Rle_trans with (bpow radix2 904); [|apply bpow_le; lia].
    change 904%Z with (4 + 900)%Z. rewrite bpow_plus. change (bpow radix2 4) with 16. lra. }
  split; [exact N|]. exists E, P. split.
  { intros q Hq. destruct (G q Hq) as (D & _). pose proof (bpow_gt_0 radix2 (-36)). split; [apply expected_improvement; lra | apply probability_cdf; lra]. }
  unfold ei_mcmc_f. rewrite average_plus, average_scale in B. eapply Rle_trans; [exact B|]. rewrite W45, W48. fold g. rewrite !average_scale.
  destruct (count_real qs C) as (_ & _ & [L1 _]). set (n := INR (length qs)) in *.
  assert (A1 : average (map (fun q => reach par q + dev q) qs) <= average (map g qs)) by (apply average_le; [exact C | intros q Hq; apply (G q Hq)]).
  assert (A2 : et <= ee * average (map g qs)).
  { rewrite <- average_scale, <- (average_const et qs C). apply average_le; [exact C|]. intros q Hq. destruct (G q Hq) as (D & G1 & _). pose proof (reach_bound par q Mp (H q Hq)). apply et_dev. lra. }
  set (a := average (map g qs)) in *. set (b := average (map (fun q => reach par q + dev q) qs)) in *. assert (n * ee * b <= n * ee * a) by (apply Rmult_le_compat_l; [apply Rmult_le_pos; lra | exact A1]).
  replace ((256 * ee + n * (32 * ee)) * a) with (256 * (ee * a) + 32 * (n * ee * a)) by ring. lra.
Qed.
Print Assumptions C136_ei.

(** Without a jitter that is the average expected improvement itself. *)
Theorem C136_ei_no_jitter : forall L qs, libm_like L -> accurate L -> counted qs -> (forall q, In q qs -> moderate_sample q) ->
  exists E : sample_f -> R, (forall q, In q qs -> expectation (val (s_mean q)) (dev q) (improvement (val (s_fmin q))) (E q)) /\
    Rabs (val (ei_mcmc_f L f0 qs) - average (map E qs)) <= (bpow radix2 (-45) + INR (length qs) * bpow radix2 (-48)) * average (map (fun q => Rabs (val (s_fmin q)) + Rabs (val (s_mean q)) + dev q) qs).
Proof.
  intros L qs HL HA C H. destruct f0_ok as [_ V0]. destruct (C136_ei L f0 qs HL HA (mod_small 0 ltac:(cbn; lia)) C H) as (_ & E & P & HE & B). exists E. split.
  - intros q Hq. destruct (HE q Hq) as [X _]. rewrite V0, Rminus_0_r in X. exact X.
  - rewrite V0, Rmult_0_r, Rmult_0_l, Rplus_0_r in B. eapply Rle_trans; [exact B|]. right. f_equal. f_equal. apply map_ext. intros q. unfold reach, size3. rewrite V0, Rabs_R0. ring.
Qed.
Print Assumptions C136_ei_no_jitter.

(** The integrated probability of improvement. *)
Theorem C136_mpi : forall L par qs, libm_like L -> accurate L -> moderate par -> counted qs -> (forall q, In q qs -> moderate_sample q) ->
  number (mpi_mcmc_f L par qs) /\
  exists P : sample_f -> R, (forall q, In q qs -> probability_le (val (s_mean q)) (dev q) (val (s_fmin q) - val par) (P q)) /\
    Rabs (val (mpi_mcmc_f L par qs) - average (map P qs)) <= bpow radix2 (-45) * average (map (fun q => 1 + reach par q / dev q) qs) + INR (length qs) * bpow radix2 (-50).
Proof.
  intros L par qs HL HA Mp C H. pose proof ee_small as Es. pose proof et_small as Et. destruct pow_ee as (W45 & _ & W50).
  set (P := fun q => cdf ((val (s_fmin q) - val par - val (s_mean q)) / dev q)). set (g := fun q => 1 + reach par q / dev q).
  destruct (integrated (fun q => mpi_f L par (s_fmin q) (s_mean q) (s_dev q)) P (fun q => 128 * ee * g q) (fun _ => 1) qs C) as [N B].
  { intros q Hq. destruct (clipped_dev q (H q Hq)) as [V _]. destruct (H q Hq) as (Mm & Ms & Mf). pose proof (mpi_near L par (s_fmin q) (s_mean q) (s_dev q) HL HA Mp Mf Mm Ms) as B. rewrite V in B.
    destruct (Phi_ok L (quantile_u par (s_fmin q) (s_mean q) (clipped (s_dev q))) HL) as [NP RP]; [apply u_pos; [apply Mp | apply Mf | apply Mm | apply Ms]|].
    split; [exact NP|]. split; [exact B|]. split; [rewrite Rabs_pos_eq; apply RP|]. change 1 with (bpow radix2 0). apply bpow_le. lia. }
  split; [exact N|]. exists P. split.
  { intros q Hq. destruct (clipped_dev q (H q Hq)) as [_ [D _]]. pose proof (bpow_gt_0 radix2 (-36)). apply probability_cdf. lra. }
  unfold mpi_mcmc_f. rewrite average_scale, (average_const 1 qs C) in B. eapply Rle_trans; [exact B|]. rewrite W45, W50. fold g.
  assert (A : 1 <= average (map g qs)).
  { rewrite <- (average_const 1 qs C) at 1. apply average_le; [exact C|]. intros q Hq. destruct (clipped_dev q (H q Hq)) as [_ [D _]]. pose proof (bpow_gt_0 radix2 (-36)). pose proof (reach_bound par q Mp (H q Hq)).
    assert (0 <= reach par q / dev q) by (apply le_div; lra). unfold g. lra. }
  pose proof et_ee. assert (ee * 1 <= ee * average (map g qs)) by (apply Rmult_le_compat_l; lra). set (a := average (map g qs)) in *. lra.
Qed.
Print Assumptions C136_mpi.

(** The integrated lower confidence bound. *)
Theorem C136_lcb : forall w qs, number w -> counted qs ->
  (forall q, In q qs -> moderate (s_mean q) /\ number (s_dev q) /\ Rabs (val w * val (s_dev q)) <= bpow radix2 900) ->
  number (lcb_mcmc_f w qs) /\
  Rabs (val (lcb_mcmc_f w qs) - average (map (fun q => - val (s_mean q) + val w * val (s_dev q)) qs)) <=
    INR (length qs) * bpow radix2 (-48) * average (map (fun q => Rabs (val (s_mean q)) + Rabs (val w * val (s_dev q))) qs) + bpow radix2 (-1072).
Proof.
  intros w qs Nw C H. pose proof ee_small as Es. pose proof et_small as Et. destruct pow_ee as (_ & W48 & _). set (g := fun q => Rabs (val (s_mean q)) + Rabs (val w * val (s_dev q))). pose proof et_ee as Te.
  assert (G0 : forall q, 0 <= g q) by (intros q; unfold g; pose proof (Rabs_pos (val (s_mean q))); pose proof (Rabs_pos (val w * val (s_dev q))); lra).
  destruct (integrated (fun q => lcb_f w (s_mean q) (s_dev q)) (fun q => - val (s_mean q) + val w * val (s_dev q)) (fun q => 3 * ee * g q + 3 * et) (fun q => 2 * g q + 3 * et) qs C) as [N B].
  { intros q Hq. destruct (H q Hq) as (Mm & Ns & Bs). destruct (lcb_near w (s_mean q) (s_dev q) Mm Nw Ns Bs) as [N B]. fold (g q) in B. split; [exact N|]. split; [exact B|].
    assert (Rabs (- val (s_mean q) + val w * val (s_dev q)) <= g q) by (eapply Rle_trans; [apply Rabs_triang|]; rewrite Rabs_Ropp; unfold g; lra). pose proof (near_abs _ _ _ B) as A. pose proof (G0 q).
    assert (3 * ee * g q <= 1 * g q) by (apply Rmult_le_compat_r; lra). split; [lra|]. assert (g q <= 2 * bpow radix2 900) by (unfold g; destruct Mm; lra).
    assert (1 <= bpow radix2 900) by (change 1 with (bpow radix2 0); apply bpow_le; lia). apply Rle_trans with (bpow radix2 904); [|apply bpow_le; lia]. change 904%Z with (4 + 900)%Z. rewrite bpow_plus. change (bpow radix2 4) with 16. lra. }
  split; [exact N|]. unfold lcb_mcmc_f. rewrite (average_plus (fun q => 3 * ee * g q) (fun _ => 3 * et)), (average_plus (fun q => 2 * g q) (fun _ => 3 * et)), (average_scale g (3 * ee)), (average_scale g 2), (average_const (3 * et) qs C) in B. eapply Rle_trans; [exact B|]. rewrite W48. fold g.
  assert (W : bpow radix2 (-1072) = 8 * et) by (unfold et; change (-1072)%Z with (3 + -1075)%Z; rewrite bpow_plus; change (bpow radix2 3) with 8; ring). rewrite W.
  destruct (count_real qs C) as (_ & _ & [L1 L2]). set (n := INR (length qs)) in *. assert (A0 : 0 <= average (map g qs)) by (rewrite <- (average_const 0 qs C); apply average_le; [exact C | intros; apply G0]).
  set (a := average (map g qs)) in *. assert (E40 : bpow radix2 40 * ee = / 8192) by (unfold ee; change (bpow radix2 40) with 1099511627776; lra).
  assert (nE : n * ee <= / 8192) by (rewrite <- E40; apply Rmult_le_compat_r; lra). assert (n * ee * et <= / 8192 * et) by (apply Rmult_le_compat_r; lra).
  assert (X0 : 0 <= ee * a) by (apply Rmult_le_pos; lra). assert (1 * (ee * a) <= n * (ee * a)) by (apply Rmult_le_compat_r; lra). lra.
Qed.
Print Assumptions C136_lcb.

(** With a single sample the integrated probability and bound are exactly the plain ones; any sample whose value is NaN makes the mean NaN. *)
Lemma single_mean : forall v, number v -> number (samples_mean [v]) /\ val (samples_mean [v]) = val v.
Proof.
  intros v N. destruct (zero_plus v N) as [N0 V0]. unfold samples_mean. cbn [fold_left length Z.of_nat]. destruct of1 as [_ V1]. change (Z.pos (Pos.of_succ_nat 0)) with 1%Z.
  assert (R : rnd (val (fadd f0 v) / val (of_Z 1)) = val v) by (rewrite V0, V1; unfold Rdiv; rewrite Rinv_1, Rmult_1_r; apply round_generic; [apply valid_rnd_N | apply F64_val]).
  destruct (fdiv_ok (fadd f0 v) (of_Z 1) N0) as [M W]; [rewrite V1; lra | rewrite R; apply abs_B2R_lt_emax|]. split; [exact M|]. now rewrite W.
Qed.
Theorem C136_one : forall L par w q,
  (number (mpi_f L par (s_fmin q) (s_mean q) (s_dev q)) -> val (mpi_mcmc_f L par [q]) = val (mpi_f L par (s_fmin q) (s_mean q) (s_dev q))) /\
  (number (lcb_f w (s_mean q) (s_dev q)) -> val (lcb_mcmc_f w [q]) = val (lcb_f w (s_mean q) (s_dev q))).
Proof. intros L par w q. split; intros N; now apply single_mean. Qed.
Print Assumptions C136_one.
Lemma nan_add : forall a b : float, nan_p a = true \/ nan_p b = true -> nan_p (fadd a b) = true.
Proof. intros a b [H|H]; destruct a, b; try discriminate H; reflexivity. Qed.
Lemma nan_fold : forall vs (a : float), nan_p a = true \/ (exists v, In v vs /\ nan_p v = true) -> nan_p (fold_left fadd vs a) = true.
Proof.
  induction vs as [|v vs IH]; intros a [H|(u & Hu & K)]; cbn [fold_left]; [exact H | destruct Hu | apply IH; left; apply nan_add; now left|].
  destruct Hu as [->|Hu]; apply IH; [left; apply nan_add; now right | right; now exists u].
Qed.
Lemma nan_mean : forall vs, (exists v, In v vs /\ nan_p v = true) -> nan_p (samples_mean vs) = true.
Proof. intros vs H. pose proof (nan_fold vs f0 (or_intror H)) as N. unfold samples_mean. destruct (fold_left fadd vs f0); try discriminate N. reflexivity. Qed.
Theorem C136_nan : forall L par w qs q, In q qs ->
  (nan_p (ei_sample_f L par q) = true -> nan_p (ei_mcmc_f L par qs) = true) /\
  (nan_p (mpi_f L par (s_fmin q) (s_mean q) (s_dev q)) = true -> nan_p (mpi_mcmc_f L par qs) = true) /\
  (nan_p (lcb_f w (s_mean q) (s_dev q)) = true -> nan_p (lcb_mcmc_f w qs) = true).
Proof.
  intros L par w qs q Hq. repeat split; intros N; apply nan_mean; eexists; (split; [|exact N]).
  - now apply in_map.
  - now apply (in_map (fun q => mpi_f L par (s_fmin q) (s_mean q) (s_dev q))).
  - now apply (in_map (fun q => lcb_f w (s_mean q) (s_dev q))).
Qed.
Print Assumptions C136_nan.

(** That the average of numbers is a number is false: the sum may overflow.  Two samples that both predict -2^1023 have an infinite bound. *)
Theorem C136_overflow_refuted : exists w qs, number w /\ counted qs /\ (forall q, In q qs -> number (s_mean q) /\ number (s_dev q) /\ lcb_f w (s_mean q) (s_dev q) = lit 1 1023) /\
  lcb_mcmc_f w qs = B754_infinity false.
Proof.
  exists (of_Z 2), [mk_sample (lit (-1) 1023) f0 f0; mk_sample (lit (-1) 1023) f0 f0]. split; [reflexivity|]. split; [split; [discriminate | cbn; lia]|]. split.
  - intros q [<-|[<-|[]]]; cbn [s_mean s_dev]; (split; [vm_compute; reflexivity|]; split; [vm_compute; reflexivity|]); apply B2SF_inj; vm_compute; reflexivity.
  - apply B2SF_inj. vm_compute. reflexivity.
Qed.
Print Assumptions C136_overflow_refuted.

(** Two samples, one certain that the location is 1 below its minimum, the other undecided with deviation 1. *)
Example C136_nonvacuous : exists L qs, libm_like L /\ accurate L /\ counted qs /\ length qs = 2%nat /\ (forall q, In q qs -> moderate_sample q) /\
  (exists q q', In q qs /\ In q' qs /\ dev q = floor10 /\ dev q' = 1) /\
  val (lcb_mcmc_f (of_Z 2) qs) = 1.
Proof.
  set (q := mk_sample f0 f0 (of_Z 1)). set (q' := mk_sample f0 (of_Z 1) f0). exists exact_libm, [q; q']. destruct (C126_library _ exact_rounded) as [HL HA]. destruct f0_ok as [_ V0]. destruct of1 as [Z1 V1].
  assert (M0 : moderate f0) by (apply (mod_small 0); cbn; lia). assert (M1 : moderate (of_Z 1)) by (apply mod_small; cbn; lia). pose proof floor10_near as K. apply Rabs_le_inv in K.
  assert (bpow radix2 (-87) <= bpow radix2 (-50)) by (apply bpow_le; lia). change (bpow radix2 (-50)) with (/ 1125899906842624) in *.
  split; [exact HL|]. split; [exact HA|]. split; [split; [discriminate | cbn; lia]|]. split; [reflexivity|]. split; [intros x [<-|[<-|[]]]; repeat split; (apply M0 || apply M1)|]. split.
  - exists q, q'. split; [now left|]. split; [right; now left|]. unfold dev. cbn [s_dev q q']. rewrite V0, V1. split; [apply Rmax_right; lra | apply Rmax_left; lra].
  - assert (Q : B2SF (lcb_mcmc_f (of_Z 2) [q; q']) = B2SF (of_Z 1)) by (vm_compute; reflexivity). apply B2SF_inj in Q. now rewrite Q.
Qed.
