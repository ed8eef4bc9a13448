(** How accurate acquisition values are in double precision. *)
From Coq Require Import List ZArith Bool Reals Lra Lia.
From Flocq Require Import Core IEEE754.BinarySingleNaN.
From Verif.Model Require Import Py Float FloatStop FloatCons FloatAcq AcqR.
From Verif.Spec Require Import FloatSpec RSpec FloatAcqSpec FloatAccSpec.
From Verif.Proof Require Import FloatP FloatStopP FloatConsP GaussP AcqP FloatAcqP FloatAccA FloatAccP.
Import ListNotations.
Local Open Scope R_scope.

Lemma pow46 : bpow radix2 (-46) = 128 * ee.
Proof. unfold ee. change (bpow radix2 (-46)) with (/ 70368744177664). lra. Qed.

(** C126, expected improvement: for inputs of size at most 2^900 and a library that is accurate to 2^-50, the value that is computed is a number,
    and it is within 2^-46 of the expectation of the improvement over the minimum less the jitter, under the normal distribution that is predicted
    with its deviation raised to 1e-10 where it is smaller; relative to the sizes of the numbers that enter. *)
Theorem C126_ei : forall L par fmin m s, libm_like L -> accurate L -> moderate par -> moderate fmin -> moderate m -> moderate s ->
  number (ei_f L par fmin m s) /\
  exists E, expectation (val m) (Rmax (val s) floor10) (improvement (val fmin - val par)) E /\
    Rabs (val (ei_f L par fmin m s) - E) <= bpow radix2 (-46) * (size3 fmin m par + Rmax (val s) floor10).
Proof.
  intros L par fmin m s HL HA Hp Hf Hm Hs. destruct (ei_near L par fmin m s HL HA Hp Hf Hm Hs) as [N B]. split; [exact N|].
  destruct (clipped_mod s Hs) as (_ & [C _] & V). rewrite tenth10_val in V. rewrite <- V. eexists. split; [apply expected_improvement|].
  - pose proof (bpow_gt_0 radix2 (-36)). lra.
  - rewrite pow46. exact B.
Qed.
Print Assumptions C126_ei.

(** The probability of improvement, likewise; relative to those sizes divided by the deviation. *)
Theorem C126_mpi : forall L par fmin m s, libm_like L -> accurate L -> moderate par -> moderate fmin -> moderate m -> moderate s ->
  number (mpi_f L par fmin m s) /\
  exists P, probability_le (val m) (Rmax (val s) floor10) (val fmin - val par) P /\
    Rabs (val (mpi_f L par fmin m s) - P) <= bpow radix2 (-46) * (1 + size3 fmin m par / Rmax (val s) floor10).
Proof.
  intros L par fmin m s HL HA Hp Hf Hm Hs. pose proof (mpi_near L par fmin m s HL HA Hp Hf Hm Hs) as B.
  split; [apply Phi_ok; [exact HL | apply u_pos; [apply Hp | apply Hf | apply Hm | apply Hs]]|].
  destruct (clipped_mod s Hs) as (_ & [C _] & V). rewrite tenth10_val in V. rewrite <- V. eexists. split; [apply probability_cdf|].
  - pose proof (bpow_gt_0 radix2 (-36)). lra.
  - rewrite pow46. exact B.
Qed.
Print Assumptions C126_mpi.

(** The lower confidence bound. *)
Theorem C126_lcb : forall w m s, moderate m -> number w -> number s -> Rabs (val w * val s) <= bpow radix2 900 ->
  number (lcb_f w m s) /\
  Rabs (val (lcb_f w m s) - (- val m + val w * val s)) <= 3 * bpow radix2 (-53) * (Rabs (val m) + Rabs (val w * val s)) + 3 * bpow radix2 (-1075).
Proof. exact lcb_near. Qed.
Print Assumptions C126_lcb.

(** The least deviation that is used, and the libraries that are accurate. *)
Theorem C126_floor : Rabs (floor10 - / 10000000000) <= bpow radix2 (-87).
Proof. exact floor10_near. Qed.
Print Assumptions C126_floor.
Theorem C126_library : forall L, correctly_rounded L -> libm_like L /\ accurate L.
Proof. intros L H. split; [now apply rounded_like | now apply rounded_accurate]. Qed.
Print Assumptions C126_library.

(** The hypotheses are met: a correctly rounded library exists, and at a mean of 0 and a deviation of 1 with the minimum 1 the computed expected
    improvement is within 2^-45 of the exact one. *)
Lemma mod_small : forall n, (Z.abs n <= 2 ^ 53)%Z -> moderate (of_Z n).
Proof.
  intros n H. destruct (of_Z_ok n H) as [N V]. split; [exact N|]. rewrite V, <- abs_IZR. apply Rle_trans with (bpow radix2 53); [|apply bpow_le; lia].
  change (bpow radix2 53) with (IZR (2 ^ 53)). now apply IZR_le.
Qed.
Example C126_nonvacuous : exists L, correctly_rounded L /\ moderate f0 /\ moderate (of_Z 1) /\
  exists E, expectation 0 1 (improvement 1) E /\ Rabs (val (ei_f L f0 (of_Z 1) f0 (of_Z 1)) - E) <= bpow radix2 (-45).
Proof.
  exists exact_libm. destruct (C126_library _ exact_rounded) as [HL HA]. assert (M0 : moderate f0) by (apply (mod_small 0); cbn; lia). assert (M1 : moderate (of_Z 1)) by (apply mod_small; cbn; lia).
  split; [exact exact_rounded|]. split; [exact M0|]. split; [exact M1|]. destruct (C126_ei exact_libm f0 (of_Z 1) f0 (of_Z 1) HL HA M0 M1 M0 M1) as (_ & E & H1 & H2).
  destruct f0_ok as [_ V0]. destruct of1 as [_ V1]. assert (F : Rmax (val (of_Z 1)) floor10 = 1).
  { pose proof floor10_near as K. apply Rabs_le_inv in K. assert (bpow radix2 (-87) <= bpow radix2 (-1)) by (apply bpow_le; lia). change (bpow radix2 (-1)) with (/ 2) in *. rewrite V1. apply Rmax_left. lra. }
  rewrite F in *. exists E. rewrite V0, V1 in H1. replace (1 - 0) with 1 in H1 by ring. split; [exact H1|].
  eapply Rle_trans; [exact H2|]. unfold size3. rewrite V0, V1, Rabs_R0, Rabs_R1. change (-45)%Z with (1 + -46)%Z. rewrite (bpow_plus radix2 1 (-46)). change (bpow radix2 1) with 2. lra.
Qed.
(** That the relative error is small is false: a hundred deviations above the minimum the exact value is positive and the computed one is 0. *)
Theorem C126_refuted : exists par fmin m s E, moderate par /\ moderate fmin /\ moderate m /\ moderate s /\
  expectation (val m) (val s) (improvement (val fmin - val par)) E /\ 0 < E /\ forall L, libm_like L -> val (ei_f L par fmin m s) = 0.
Proof.
  exists f0, f0, (of_Z 100), (of_Z 1), (1 * ((0 - 100) / 1 * cdf ((0 - 100) / 1) + phi ((0 - 100) / 1))).
  assert (M0 : moderate f0) by (apply (mod_small 0); cbn; lia). destruct f0_ok as [Z0 V0]. destruct of1 as [Z1 V1]. destruct (of_Z_ok 100 ltac:(cbn; lia)) as [Zh Vh].
  split; [exact M0|]. split; [exact M0|]. split; [apply mod_small; cbn; lia|]. split; [apply mod_small; cbn; lia|]. rewrite V0, V1, Vh. replace (0 - 0) with 0 by ring.
  split; [apply expected_improvement; lra|]. split; [apply Rmult_lt_0_compat; [lra | apply h_pos]|]. intros L HL.
  assert (U : number (quantile_u f0 f0 (of_Z 100) (clipped (of_Z 1)))) by (vm_compute; reflexivity). destruct (of_Z_ok (-50) ltac:(cbn; lia)) as [Zm Vm].
  assert (Lo : flt (quantile_u f0 f0 (of_Z 100) (clipped (of_Z 1))) (of_Z (-50)) = true) by (vm_compute; reflexivity). apply (flt_true _ _ U Zm) in Lo. rewrite Vm in Lo.
  apply (plateau L f0 f0 (of_Z 100) (of_Z 1) HL Z0 Z0 Zh Z1 U). lra.
Qed.
Print Assumptions C126_refuted.
