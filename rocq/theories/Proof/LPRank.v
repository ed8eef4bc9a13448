(** Local penalization without batch points keeps the ranking of the wrapped acquisition. *)
From Coq Require Import Reals Lra Psatz List.
From Verif.Model Require Import AcqR.
From Verif.Spec Require Import RSpec AcqSpec.
From Verif.Proof Require Import AcqP LPP.
Import ListNotations.
Local Open Scope R_scope.

Lemma ln_mono_iff a b : 0 < a -> 0 < b -> (ln a < ln b <-> a < b).
Proof. intros A B. split; intros H; [now apply ln_lt_inv|now apply ln_increasing]. Qed.
Lemma e50_pos : 0 < e50. Proof. unfold e50. apply Rinv_0_lt_compat, pow_lt. lra. Qed.

Theorem ranking_of_the_logarithm U x y : u_value U x <= 0 -> u_value U y <= 0 ->
  (penalized (lp_transform false TNone) U [] x < penalized (lp_transform false TNone) U [] y <-> u_value U x < u_value U y).
Proof.
  intros X Y. cbn [lp_transform]. rewrite !penalized_nil. cbn [lp_map]. pose proof e50_pos as P.
  pose proof (ln_mono_iff (- u_value U y + e50) (- u_value U x + e50) ltac:(lra) ltac:(lra)) as [I J]. split; intros H.
  - assert (K : ln (- u_value U y + e50) < ln (- u_value U x + e50)) by lra. apply I in K. lra.
  - assert (K : - u_value U y + e50 < - u_value U x + e50) by lra. apply J in K. lra.
Qed.

(** softplus *)
Definition sp (f : R) : R := if Rlt_dec f 40 then ln (1 + exp f) else f.
Lemma sp_pos f : 0 < sp f.
Proof.
  unfold sp. destruct (Rlt_dec f 40); [|lra]. rewrite <- ln_1. apply ln_increasing; [lra|]. pose proof (exp_pos f). lra.
Qed.
Lemma softplus_ln f : lp_map TSoftplus f = ln (sp f).
Proof. cbn [lp_map]. unfold sp. destruct (Rlt_dec f 40); reflexivity. Qed.
Lemma low_incr f g : f < g -> ln (1 + exp f) < ln (1 + exp g).
Proof. intros H. apply ln_increasing; [pose proof (exp_pos f); lra|]. pose proof (exp_increasing f g H). lra. Qed.
Lemma ln_1p x : 0 < x -> ln (1 + x) < x.
Proof. intros P. rewrite <- (ln_exp x) at 2. apply ln_increasing; [lra|]. apply exp_ineq1. lra. Qed.
Lemma low_split f : ln (1 + exp f) = f + ln (1 + exp (- f)).
Proof.
  replace (1 + exp f) with (exp f * (1 + exp (- f))).
  - rewrite ln_mult, ln_exp; [reflexivity|apply exp_pos|]. pose proof (exp_pos (- f)). lra.
  - rewrite Rmult_plus_distr_l, <- exp_plus. replace (f + - f) with 0 by ring. rewrite exp_0. ring.
Qed.
Lemma exp_nat n x : exp (INR n * x) = exp x ^ n.
Proof. induction n as [|n IH]; [cbn; rewrite Rmult_0_l; apply exp_0|]. rewrite S_INR, Rmult_plus_distr_r, exp_plus, IH, Rmult_1_l. cbn. ring. Qed.
Lemma exp1 : 269 / 100 <= exp 1.
Proof.
  replace 1 with (INR 64 * (1 / 64)) at 1 by (rewrite INR_IZR_INZ; cbn; lra). rewrite exp_nat.
  apply Rle_trans with ((1 + 1 / 64) ^ 64); [lra|]. apply pow_incr. split; [lra|]. left. apply exp_ineq1. lra.
Qed.
Lemma exp39 : 4 * 10 ^ 16 <= exp 39.
Proof.
  replace 39 with (INR 39 * 1) by (rewrite INR_IZR_INZ; cbn; lra). rewrite exp_nat.
  apply Rle_trans with ((269 / 100) ^ 39); [lra|]. apply pow_incr. split; [lra|exact exp1].
Qed.
Lemma tail f : 39 <= f -> 0 < ln (1 + exp (- f)) < / 2 * / 10 ^ 16.
Proof.
  intros H. pose proof (exp_pos (- f)) as P. split; [rewrite <- ln_1; apply ln_increasing; lra|].
  apply Rlt_le_trans with (exp (- f)); [now apply ln_1p|].
  rewrite exp_Ropp. rewrite <- Rinv_mult. apply Rinv_le_contravar; [apply Rmult_lt_0_compat; [lra|apply pow_lt; lra]|].
  pose proof exp39. assert (exp 39 <= exp f). { destruct (Rle_lt_or_eq_dec _ _ H) as [L|E]; [left; now apply exp_increasing|right; now rewrite E]. }
  lra.
Qed.
Lemma sp_gap f g : f + / 10 ^ 16 <= g -> sp f < sp g.
Proof.
  intros H. assert (P : 0 < / 10 ^ 16) by (apply Rinv_0_lt_compat, pow_lt; lra). assert (P1 : / 10 ^ 16 < 1) by lra. unfold sp.
  destruct (Rlt_dec f 40) as [F|F], (Rlt_dec g 40) as [G|G]; try lra; [apply low_incr; lra|].
  destruct (Rlt_dec f 39) as [F'|F'].
  - pose proof (low_incr f 39 F') as I. rewrite (low_split 39) in I. pose proof (tail 39 (Rle_refl 39)). lra.
  - destruct (Rle_dec (40 + / 2 * / 10 ^ 16) g) as [G'|G'].
    + pose proof (low_incr f 40 F) as I. rewrite (low_split 40) in I. pose proof (tail 40 ltac:(lra)). lra.
    + rewrite low_split. pose proof (tail f ltac:(lra)). lra.
Qed.
Theorem ranking_of_softplus U x y : u_value U x + / 10 ^ 16 <= u_value U y ->
  penalized (lp_transform true TNone) U [] x < penalized (lp_transform true TNone) U [] y.
Proof.
  intros H. cbn [lp_transform]. rewrite !penalized_nil, !softplus_ln. apply Ropp_lt_contravar.
  apply ln_increasing; [apply sp_pos|]. apply sp_gap. lra.
Qed.
Theorem ranking_of_softplus_below U x y : -40 < u_value U x -> -40 < u_value U y ->
  (penalized (lp_transform true TNone) U [] x < penalized (lp_transform true TNone) U [] y <-> u_value U x < u_value U y).
Proof.
  intros X Y. cbn [lp_transform]. rewrite !penalized_nil, !softplus_ln.
  assert (A : forall a b, a < 40 -> b < 40 -> a < b -> ln (sp a) < ln (sp b)).
  { intros a b Ha Hb L. apply ln_increasing; [apply sp_pos|]. unfold sp. destruct (Rlt_dec a 40), (Rlt_dec b 40); try lra. now apply low_incr. }
  split; intros H.
  - destruct (Rlt_dec (u_value U x) (u_value U y)) as [|N]; [assumption|exfalso].
    destruct (Req_dec (u_value U x) (u_value U y)) as [E|E]; [rewrite E in H; lra|].
    pose proof (A (- u_value U x) (- u_value U y) ltac:(lra) ltac:(lra) ltac:(lra)). lra.
  - pose proof (A (- u_value U y) (- u_value U x) ltac:(lra) ltac:(lra) ltac:(lra)). lra.
Qed.
(** At 40 the code changes from log(1 + exp f) to f: the value drops. *)
Theorem ranking_refuted : exists U x y, u_value U x < u_value U y /\
  penalized (lp_transform true TNone) U [] y < penalized (lp_transform true TNone) U [] x.
Proof.
  set (d := ln (1 + exp (Ropp 40)) / 2).
  assert (P : 0 < ln (1 + exp (Ropp 40))) by (apply tail; lra).
  exists (mk_under (fun p => match p with [] => -40 | _ => -40 + d end) (fun p => p)), [], [0]. cbn [lp_transform]. rewrite !penalized_nil, !softplus_ln.
  cbn [u_value]. split; [unfold d; lra|]. apply Ropp_lt_contravar, ln_increasing; [apply sp_pos|].
  unfold sp. destruct (Rlt_dec (- -40) 40); [lra|]. destruct (Rlt_dec (- (-40 + d)) 40) as [|N]; [|unfold d in N; lra].
  replace (- -40) with 40 by ring. apply Rlt_le_trans with (- (-40 + d) + ln (1 + exp (Ropp 40))); [unfold d; lra|].
  rewrite (low_split (- (-40 + d))). apply Rplus_le_compat_l. left. apply ln_increasing; [pose proof (exp_pos (Ropp 40)); lra|].
  apply Rplus_lt_compat_l, exp_increasing. unfold d. lra.
Qed.

Theorem improvement_not_positive A c ok x : (forall z, 0 < compute_acq A z) -> 0 < fst (c x) -> acquisition_function A c ok x <= 0.
Proof.
  intros P C. unfold acquisition_function. pose proof (P x). unfold Rdiv.
  assert (I : 0 < / fst (c x)) by now apply Rinv_0_lt_compat.
  destruct (ok x); cbn [b2r]; nra.
Qed.
