(** Entropy search: moment matching, and the exact answer for two points. *)
From Coq Require Import Reals Lra Psatz List Lia Bool Arith.
From Coquelicot Require Import Coquelicot.
From Verif.Model Require Import AcqR ES.
From Verif.Spec Require Import RSpec ESSpec.
From Verif.Proof Require Import Gauss GaussP AcqP AcqM ESP ESP2 ESEx ESMarg ESCov.
Import ListNotations.
Local Open Scope R_scope.

Lemma clamp p x e : p + Rmax (- p + e) (1 * (x - p)) = Rmax e x.
Proof. unfold Rmax. destruct (Rle_dec _ _), (Rle_dec _ _); lra. Qed.
Lemma contrast2 s l (V : matr) : symmetric V -> contrast s l (fun i => contrast s l (V i)) = (V l l - 2 * V s l + V s s) / 2.
Proof.
  intros SV. unfold contrast. rewrite (SV l s). pose proof sqrt2_sq as S2. pose proof sqrt2_pos.
  replace (((V l l - V s l) / sqrt 2 - (V s l - V s s) / sqrt 2) / sqrt 2) with ((V l l - 2 * V s l + V s s) / (sqrt 2 * sqrt 2)) by (field; lra). now rewrite S2.
Qed.
(** the message computed by the code, in terms of the restricted moments *)
Lemma message_forms m v e : 0 < v -> let alpha := e / sqrt v in let beta := alpha * (alpha * v + m) in
  1 - beta <> 0 ->
  beta / (1 - beta) / v = factor_precision m v e /\ beta / (1 - beta) * (alpha + m / v) + alpha = factor_mean m v e /\
  restricted_variance m v e = v * (1 - beta).
Proof.
  intros V0 alpha beta N. pose proof (sqrt_lt_R0 v V0) as SV. pose proof (sqrt_sqrt v (Rlt_le _ _ V0)) as Q.
  assert (AV : sqrt v * e = alpha * v). { unfold alpha. replace (e / sqrt v * v) with (e / sqrt v * (sqrt v * sqrt v)) by (now rewrite Q). field. lra. }
  assert (B : e * (e + m / sqrt v) = beta). { unfold beta. rewrite <- AV. unfold alpha. field. lra. }
  assert (RV : restricted_variance m v e = v * (1 - beta)) by (unfold restricted_variance; now rewrite B).
  unfold factor_precision, factor_mean, restricted_mean. rewrite RV, AV.
  split; [|split; [|reflexivity]]; field; lra.
Qed.
Section Message.
Variables (s l : nat) (M : vect) (V : matr) (mp p : R) (v m e lP : R).
Hypothesis SV : symmetric V.
Let cVc := contrast s l (fun i => contrast s l (V i)).
Let cM := contrast s l M.
Hypothesis V0 : 0 < v.
Hypothesis CV : cVc / (1 - p * cVc) = v.
Hypothesis CM : cM + v * (p * cM - mp) = m.
Let z := m / sqrt (v + / 10 ^ 25).
Let alpha := e / sqrt v.
Let beta := alpha * (alpha * v + m).
Lemma lt_zero : log_relative_gauss z = (e, lP, 0%Z) ->
  let q := lt_factor s l M V mp p 1 in
  fa_p q = Rmax eps32 (beta / (1 - beta) / v) /\ fa_mp q = Rmax eps32 (beta / (1 - beta) * (alpha + m / v) + alpha) /\
  fa_logS q = Some (lP - / 2 * (ln beta - ln (fa_p q) - ln v) + alpha * alpha / (2 * beta) * v) /\ exists d, fa_d q = Some d.
Proof.
  intros G q. unfold q, lt_factor. rewrite <- (contrast2 s l V SV). fold cVc. change ((M l - M s) / sqrt 2) with cM. cbv zeta.
  rewrite CV. rewrite (Rmax_left v 0) by lra. rewrite CM. fold z. rewrite G. cbn [Z.eqb fa_p fa_mp fa_logS fa_d]. fold alpha. fold beta. rewrite !clamp.
  repeat split. eexists. reflexivity.
Qed.
Lemma lt_one : log_relative_gauss z = (0, 0, 1%Z) ->
  let q := lt_factor s l M V mp p 1 in fa_p q = 0 /\ fa_mp q = 0 /\ fa_logS q = Some 0 /\ exists d, fa_d q = Some d.
Proof.
  intros G q. unfold q, lt_factor. rewrite <- (contrast2 s l V SV). fold cVc. change ((M l - M s) / sqrt 2) with cM. cbv zeta.
  rewrite CV. rewrite (Rmax_left v 0) by lra. rewrite CM. fold z. rewrite G. cbn [Z.eqb fa_p fa_mp fa_logS fa_d]. repeat split. eexists. reflexivity.
Qed.
Lemma lt_none : z < -6 -> fa_d (lt_factor s l M V mp p 1) = None.
Proof.
  intros Z. unfold lt_factor. rewrite <- (contrast2 s l V SV). fold cVc. change ((M l - M s) / sqrt 2) with cM. cbv zeta.
  rewrite CV. rewrite (Rmax_left v 0) by lra. rewrite CM. fold z. unfold log_relative_gauss. destruct (Rlt_dec z (-6)); [reflexivity|lra].
Qed.
End Message.

(** ---- moment matching: the marginal after the update has the restricted moments along the contrast *)
Theorem moment_matching s l M V mp p : symmetric V -> let w := contrast s l (fun i => contrast s l (V i)) in let cM := contrast s l M in
  0 < w -> p * w < 1 -> let v := w / (1 - p * w) in let m := cM + v * (p * cM - mp) in let z := m / sqrt (v + / 10 ^ 25) in
  -6 <= z <= 6 -> forall P, probability_le 0 1 z P -> kept_message m v (normal 0 1 z / P) ->
  let q := lt_factor s l M V mp p 1 in
  contrast s l (fa_M q) = restricted_mean m v (normal 0 1 z / P) /\
  contrast s l (fun i => contrast s l (fa_V q i)) = restricted_variance m v (normal 0 1 z / P).
Proof.
  intros SV w cM W0 PW v m z HZ P HP [K1 K2] q. assert (V0 : 0 < v) by (apply Rdiv_lt_0_compat; lra).
  pose proof (relative_gauss' z HZ P HP) as G. set (e := normal 0 1 z / P) in *.
  destruct (lt_zero s l M V mp p v m e (ln P) SV V0 eq_refl eq_refl G) as (FP & FM & _ & [d FD]). fold q in FP, FM, FD.
  set (alpha := e / sqrt v) in *. set (beta := alpha * (alpha * v + m)) in *. pose proof eps32_pos as EP. change (/ 2 ^ 23) with eps32 in K1, K2.
  assert (NB : 1 - beta <> 0).
  { intros C. unfold factor_precision in K1. assert (RV : restricted_variance m v e = 0).
    { unfold restricted_variance. replace (e * (e + m / sqrt v)) with beta; [rewrite C; ring|].
      pose proof (sqrt_lt_R0 v V0). pose proof (sqrt_sqrt v (Rlt_le _ _ V0)) as Q. unfold beta.
      replace (alpha * v) with (sqrt v * e) by (unfold alpha; replace (e / sqrt v * v) with (e / sqrt v * (sqrt v * sqrt v)) by (now rewrite Q); field; lra). unfold alpha. field. lra. }
    rewrite RV, Rinv_0 in K1. pose proof (Rinv_0_lt_compat v V0). lra. }
  destruct (message_forms m v e V0 NB) as (F1 & F2 & F3). fold alpha in F1, F2, F3. fold beta in F1, F2, F3.
  rewrite F1, Rmax_right in FP by exact K1. rewrite F2, Rmax_right in FM by exact K2.
  assert (DEN : 1 + (fa_p q - p) * w <> 0). { rewrite FP. nra. }
  destruct (ep_update s l M V mp p 1 SV ltac:(fold q; congruence) DEN) as (UV & UM & SV'). fold q in UV, UM, SV'.
  assert (CUV : contrast s l (fun i => contrast s l (fa_V q i)) * (1 + (fa_p q - p) * w) = w).
  { set (cc := contrast s l (fun i => contrast s l (fa_V q i))).
    assert (U : forall i, contrast s l (V i) = 1 * contrast s l (fa_V q i) + ((fa_p q - p) * cc) * contrast s l (V i)).
    { intros i. transitivity (contrast s l (fun j => 1 * fa_V q i j + ((fa_p q - p) * contrast s l (V i)) * contrast s l (fun a => fa_V q a j))).
      - apply contrast_ext; rewrite Rmult_1_l; symmetry; apply UV.
      - rewrite contrast_lin. rewrite (contrast_swap s l s l (fun j a => fa_V q a j)). change (contrast s l (fun j => contrast s l (fun i0 => fa_V q j i0))) with cc. ring. }
    assert (E : w = 1 * cc + ((fa_p q - p) * cc) * w) by (unfold w at 1 2, cc at 1; rewrite <- contrast_lin; apply contrast_ext; apply U). lra. }
  assert (CUM : contrast s l (fa_M q) * (1 + (fa_p q - p) * w) = cM + (fa_mp q - mp) * w).
  { assert (E : contrast s l (fun i => 1 * fa_M q i + ((fa_p q - p) * contrast s l (fa_M q)) * contrast s l (V i)) = contrast s l (fun i => 1 * M i + (fa_mp q - mp) * contrast s l (V i))).
    { apply contrast_ext; rewrite !Rmult_1_l; rewrite <- UM; ring. }
    rewrite !contrast_lin in E. fold w in E. fold cM in E. lra. }
  assert (WV : 1 - p * w <> 0) by lra. assert (VW : v * (1 - p * w) = w) by (unfold v; field; lra).
  set (Vr := restricted_variance m v e) in *. assert (VN : Vr <> 0) by (rewrite F3; apply Rmult_integral_contrapositive_currified; lra).
  assert (D1 : 1 + (fa_p q - p) * w = w / Vr). { rewrite FP. unfold factor_precision. fold Vr. rewrite <- VW at 1. replace (/ Vr - / v - p) with (/ Vr - (/ v + p)) by ring.
    replace (/ v + p) with (/ w). 2:{ unfold v. field. lra. } rewrite VW. field. lra. }
  assert (WN : w <> 0) by lra. split.
  - apply (Rmult_eq_reg_r (w / Vr)); [|unfold Rdiv; apply Rmult_integral_contrapositive_currified; [lra|now apply Rinv_neq_0_compat]]. rewrite <- D1 at 1. rewrite CUM, FM. unfold factor_mean. fold Vr.
    set (mr := restricted_mean m v e). assert (MV : m / v = cM / w - mp). { unfold m. replace (/ v) with (/ w - p) by (unfold v; field; lra).
      replace ((cM + v * (p * cM - mp)) / v) with (cM * / v + (p * cM - mp)) by (field; lra). replace (/ v) with (/ w - p) by (unfold v; field; lra). field. lra. }
    rewrite MV. field. split; lra.
  - apply (Rmult_eq_reg_r (w / Vr)); [|unfold Rdiv; apply Rmult_integral_contrapositive_currified; [lra|now apply Rinv_neq_0_compat]]. rewrite <- D1 at 1. rewrite CUV. field. exact VN.
Qed.

(** ---- two points: the cavity is the prior *)
Section Two.
Variables (Mu : vect) (Sigma : matr) (k : nat).
Hypothesis K : (k < 2)%nat.
Hypothesis SS : symmetric Sigma.
Hypothesis PD : positive_definite 2 Sigma.
Let l := other k 0.
Let v := contrast k l (fun i => contrast k l (Sigma i)).
Let m := contrast k l Mu.
Let z := m / sqrt (v + / 10 ^ 25).
Definition fine (w : sweep) : Prop := (forall j, 0 <= sw_P w j) /\ symmetric (sw_V w) /\ inv_marg 2 k Mu Sigma (sw_P w) (sw_MP w) (sw_M w) (sw_V w).
Lemma fine_start : fine (start Mu Sigma).
Proof. split; [intros; apply Rle_refl|]. split; [exact SS|]. apply start_marg. Qed.
Lemma prior_positive : 0 < v.
Proof. exact (proj1 (denominators 2 k Mu Sigma K PD (fun _ => 0) (fun _ => 0) Mu Sigma 0 ltac:(lia) SS (fun _ => Rle_refl 0) (start_marg 2 k Mu Sigma))). Qed.
Lemma cavity w : fine w -> let cVc := contrast k l (fun i => contrast k l (sw_V w i)) in let cM := contrast k l (sw_M w) in let p := sw_P w 0%nat in
  cVc / (1 - p * cVc) = v /\ cM + v * (p * cM - sw_MP w 0%nat) = m.
Proof.
  intros (PP & SV & INV) cVc cM p. destruct (denominators 2 k Mu Sigma K PD _ _ _ _ 0 ltac:(lia) SV PP INV) as [C0 PC]. fold l in C0, PC. fold cVc in C0, PC. fold p in PC.
  destruct INV as [H1 H2]. cbn [Nat.sub rsum] in H1, H2. fold l in H1, H2. fold p in H1, H2.
  assert (E1 : cVc + p * (v * cVc) = v).
  { pose proof (contracted 2 k Sigma (sw_P w) (sw_V w) k l H1) as HU. cbn [Nat.sub rsum] in HU. fold l in HU. fold p in HU. fold cVc in HU.
    transitivity (contrast k l (fun i => 1 * contrast k l (sw_V w i) + (p * cVc) * contrast k l (Sigma i))); [rewrite contrast_lin; fold cVc v; ring|].
    apply contrast_ext; [specialize (HU l)|specialize (HU k)]; lra. }
  assert (E2 : cM + p * (v * cM) = m + sw_MP w 0%nat * v).
  { transitivity (contrast k l (fun i => 1 * sw_M w i + (p * cM) * contrast k l (Sigma i))); [rewrite contrast_lin; fold cM v; ring|].
    transitivity (contrast k l (fun i => 1 * Mu i + sw_MP w 0%nat * contrast k l (Sigma i))); [|rewrite contrast_lin; fold m v; ring].
    apply contrast_ext; [specialize (H2 l)|specialize (H2 k)]; fold cM in H2; lra. }
  split; [|lra]. apply (Rmult_eq_reg_r (1 - p * cVc)); [|lra]. unfold Rdiv. rewrite Rmult_assoc, Rinv_l by lra. lra.
Qed.
Lemma two_step w : fine w -> let q := lt_factor k l (sw_M w) (sw_V w) (sw_MP w 0%nat) (sw_P w 0%nat) 1 in
  (fa_d q = None -> one_sweep 1 0 k 1 w 0 = None) /\
  (forall d, fa_d q = Some d -> exists w' diff, one_sweep 1 0 k 1 w 0 = Some (w', diff) /\ fine w' /\
     sw_P w' 0%nat = fa_p q /\ sw_MP w' 0%nat = fa_mp q /\ sw_logS w' 0%nat = fa_logS q).
Proof.
  intros F q. assert (U : one_sweep 1 0 k 1 w 0 = match fa_d q with None => None | Some d => Some (mk_sweep (fa_M q) (fa_V q) (fset (sw_P w) 0 (fa_p q)) (fset (sw_MP w) 0 (fa_mp q)) (fset (sw_logS w) 0 (fa_logS q)), 0 + Rabs d) end) by reflexivity.
  split; [intros E; now rewrite U, E|]. intros d E. rewrite E in U. eexists _, _. split; [exact U|]. cbn [sw_P sw_MP sw_logS]. split; [|repeat split].
  destruct F as (PP & SV & INV). split; [|split].
  - exact (proj1 (one_sweep_inv 1 0 k 1 w 0 _ _ PP SV U)).
  - exact (proj2 (one_sweep_inv 1 0 k 1 w 0 _ _ PP SV U)).
  - exact (one_sweep_marg 2 k Mu Sigma K PD 1 0 1 w 0 _ _ eq_refl PP SV INV U).
Qed.
Lemma two_sweeps (good : sweep -> Prop) :
  (forall w, fine w -> exists w' diff, one_sweep 1 0 k 1 w 0 = Some (w', diff) /\ fine w' /\ good w') ->
  forall count w, fine w -> exists w', sweeps (S count) 2 k 1 w = Some w' /\ fine w' /\ good w'.
Proof.
  intros H. induction count as [|count IH]; intros w F; destruct (H w F) as (w1 & diff & O & F1 & G1); cbn [sweeps]; change (2 - 1)%nat with 1%nat; rewrite O.
  - exists w1. destruct (Rlt_dec _ _); auto.
  - destruct (Rlt_dec _ _); [exists w1; auto|]. apply IH. exact F1.
Qed.
Variables (solve : matr -> matr) (ldet : matr -> R).
Hypothesis LA : forall B, 0 < B 0%nat 0%nat -> solve B 0%nat 0%nat = / B 0%nat 0%nat /\ ldet B = ln (B 0%nat 0%nat).
Let raw := fst (fst (fst (min_faktor solve ldet 2 Mu Sigma k))).
Lemma two_logZ P MP s mp : (forall j, 0 <= P j) -> let B := IRSR 2 k P Sigma in
  logZ 2 Mu Sigma (rvec 2 k MP) (Amat 2 k P (solve B)) (ldet B) s mp =
  / 2 * (MP 0%nat * MP 0%nat * v - P 0%nat * ((m + MP 0%nat * v) * (m + MP 0%nat * v)) / (1 + P 0%nat * v) - ln (1 + P 0%nat * v)) + MP 0%nat * m + s - / 2 * mp.
Proof.
  intros PP B. pose proof prior_positive as V0. pose proof (PP 0%nat) as P0. pose proof (sqrt_sqrt _ P0) as Q.
  assert (B0 : B 0%nat 0%nat = 1 + P 0%nat * v).
  { unfold B. rewrite IRSR_squeezed, (squeezed_contrast 2 k P K Sigma 0 0) by lia. cbn [Nat.eqb]. fold l. rewrite contrast_scal. fold v. rewrite <- Rmult_assoc, Q. reflexivity. }
  assert (BP : 0 < B 0%nat 0%nat) by (rewrite B0; nra). destruct (LA B BP) as [LS LD]. unfold logZ. cbv zeta. rewrite LD, B0.
  set (r := rvec 2 k MP). set (b := bvec 2 Mu Sigma r).
  assert (RR : forall f, dot 2 r f = MP 0%nat * contrast k l f) by (intros f; unfold dot, r; rewrite (rvec_row 2 k K MP f); cbn [Nat.sub rsum]; fold l; ring).
  assert (SR : forall i, mvec 2 Sigma r i = MP 0%nat * contrast k l (Sigma i)).
  { intros i. rewrite <- RR. unfold mvec, dot. apply rsum_ext. intros. ring. }
  assert (R1 : dot 2 r (mvec 2 Sigma r) = MP 0%nat * MP 0%nat * v).
  { rewrite RR. rewrite (contrast_ext k l (mvec 2 Sigma r) (fun i => MP 0%nat * contrast k l (Sigma i))) by apply SR. rewrite contrast_scal. fold v. ring. }
  assert (CB : contrast k l b = m + MP 0%nat * v).
  { rewrite (contrast_ext k l b (fun i => 1 * Mu i + MP 0%nat * contrast k l (Sigma i))) by (unfold b, bvec; rewrite SR; ring). rewrite contrast_lin. fold m v. ring. }
  assert (R2 : dot 2 b (mvec 2 (Amat 2 k P (solve B)) b) = P 0%nat * ((m + MP 0%nat * v) * (m + MP 0%nat * v)) / (1 + P 0%nat * v)).
  { rewrite (quad_A0 2 k P (solve B) b). unfold dot at 1. rewrite (A0_functional 2 k P K (solve B) b b). cbn [Nat.sub rsum]. unfold hvec. cbn [Nat.sub rsum]. fold l. rewrite LS, B0, CB.
    set (x := m + MP 0%nat * v). transitivity (sqrt (P 0%nat) * sqrt (P 0%nat) * (x * x) / (1 + P 0%nat * v)); [field; nra|now rewrite Q]. }
  assert (R3 : dot 2 Mu r = MP 0%nat * m). { unfold m. rewrite <- RR. unfold dot. apply rsum_ext. intros. ring. }
  rewrite R1, R2, R3. reflexivity.
Qed.
Lemma raw_of w : sweeps 50 2 k 1 (start Mu Sigma) = Some w -> fine w -> exists s, (forall x, sw_logS w 0%nat = Some x -> s = x) /\
  raw = Finite (/ 2 * (sw_MP w 0%nat * sw_MP w 0%nat * v - sw_P w 0%nat * ((m + sw_MP w 0%nat * v) * (m + sw_MP w 0%nat * v)) / (1 + sw_P w 0%nat * v) - ln (1 + sw_P w 0%nat * v))
     + sw_MP w 0%nat * m + s - / 2 * (if Req_EM_T (sw_MP w 0%nat) 0 then 0 else sw_MP w 0%nat * sw_MP w 0%nat / sw_P w 0%nat)).
Proof.
  intros E (PP & _ & _). unfold raw, min_faktor. change (Nat.leb 2 1) with false. cbv iota. rewrite E. cbn [fst]. rewrite two_logZ by exact PP.
  unfold mpm. cbn [Nat.sub rsum]. rewrite !Rplus_0_l. eexists. split; [|reflexivity]. intros x ->. reflexivity.
Qed.
Lemma two_exact : -6 <= z <= 6 -> kept_message m v (normal 0 1 z / cdf z) -> raw = Finite (ln (cdf z)).
Proof.
  intros HZ [K1 K2]. pose proof prior_positive as V0. pose proof (relative_gauss z HZ) as G.
  set (e := normal 0 1 z / cdf z) in *. set (alpha := e / sqrt v). set (beta := alpha * (alpha * v + m)). pose proof eps32_pos as EP. change (/ 2 ^ 23) with eps32 in K1, K2.
  pose proof (sqrt_lt_R0 v V0) as SV0. pose proof (sqrt_sqrt v (Rlt_le _ _ V0)) as Q.
  assert (A0' : alpha <> 0).
  { unfold alpha, e. apply Rgt_not_eq. apply Rdiv_lt_0_compat; [|exact SV0]. apply Rdiv_lt_0_compat; [|apply cdf_pos]. unfold normal.
    apply Rdiv_lt_0_compat; [apply exp_pos|]. rewrite Rmult_1_l. apply sqrt_lt_R0. pose proof PI_RGT_0. lra. }
  assert (NB : 1 - beta <> 0).
  { intros C. unfold factor_precision in K1. assert (RV : restricted_variance m v e = 0).
    { unfold restricted_variance. replace (e * (e + m / sqrt v)) with beta; [rewrite C; ring|]. unfold beta.
      replace (alpha * v) with (sqrt v * e) by (unfold alpha; replace (e / sqrt v * v) with (e / sqrt v * (sqrt v * sqrt v)) by (now rewrite Q); field; lra). unfold alpha. field. lra. }
    rewrite RV, Rinv_0 in K1. pose proof (Rinv_0_lt_compat v V0). lra. }
  destruct (message_forms m v e V0 NB) as (F1 & F2 & _). fold alpha in F1, F2. fold beta in F1, F2.
  set (p := beta / (1 - beta) / v) in *. set (mp := beta / (1 - beta) * (alpha + m / v) + alpha) in *.
  destruct (two_sweeps (fun w => sw_P w 0%nat = p /\ sw_MP w 0%nat = mp /\ sw_logS w 0%nat = Some (ln (cdf z) - / 2 * (ln beta - ln p - ln v) + alpha * alpha / (2 * beta) * v))) with (count := 49%nat) (w := start Mu Sigma)
    as (w & SW & F & WP & WM & WS); [|exact fine_start|].
  - intros w F. destruct (cavity w F) as [C1 C2]. destruct (two_step w F) as [_ ST].
    destruct (lt_zero k l (sw_M w) (sw_V w) (sw_MP w 0%nat) (sw_P w 0%nat) v m e (ln (cdf z)) (proj1 (proj2 F)) V0 C1 C2 G) as (L1 & L2 & L3 & [d L4]).
    destruct (ST d L4) as (w' & diff & O & F' & E1 & E2 & E3). exists w', diff. split; [exact O|]. split; [exact F'|].
    fold alpha in L1, L2, L3. fold beta in L1, L2, L3. fold p in L1. fold mp in L2. rewrite Rmax_right in L1 by (now rewrite F1). rewrite Rmax_right in L2 by (now rewrite F2).
    rewrite L1 in L3. rewrite E1, E2, E3. auto.
  - destruct (raw_of w SW F) as (s & HS & ->). f_equal. rewrite (HS _ WS), WP, WM.
    assert (PPos : 0 < p) by lra. assert (MPos : 0 < mp) by lra. destruct (Req_EM_T mp 0); [lra|].
    assert (PV : 1 + p * v = / (1 - beta)) by (unfold p; field; lra). assert (PV0 : 0 < 1 + p * v) by nra.
    assert (B1 : 0 < 1 - beta). { rewrite PV in PV0. rewrite <- (Rinv_inv (1 - beta)). now apply Rinv_0_lt_compat. }
    assert (BE : beta = p * v * (1 - beta)) by (unfold p; field; lra). assert (B0 : 0 < beta) by (rewrite BE; apply Rmult_lt_0_compat; [nra|exact B1]).
    rewrite PV, ln_Rinv by exact B1. assert (LP : ln p = ln beta - ln (1 - beta) - ln v).
    { unfold p, Rdiv. rewrite ln_mult; [|apply Rmult_lt_0_compat; [exact B0|now apply Rinv_0_lt_compat]|now apply Rinv_0_lt_compat].
      rewrite ln_mult by (try exact B0; now apply Rinv_0_lt_compat). rewrite !ln_Rinv by assumption. ring. }
    rewrite LP. assert (ME : m = beta / alpha - alpha * v) by (unfold beta; field; exact A0').
    assert (MPE : mp = beta * beta / ((1 - beta) * alpha * v) + alpha) by (unfold mp; rewrite ME at 1; field; repeat split; lra).
    assert (R : / 2 * (mp * mp * v - p * ((m + mp * v) * (m + mp * v)) / / (1 - beta)) + mp * m - / 2 * (mp * mp / p) + alpha * alpha / (2 * beta) * v = 0).
    { rewrite MPE. rewrite ME. unfold p. generalize beta A0' B0 B1. clear - V0. intros be A B C. field. repeat split; lra. }
    lra.
Qed.
Lemma two_certain : 6 < z -> raw = Finite 0.
Proof.
  intros HZ. pose proof prior_positive as V0. assert (G : log_relative_gauss z = (0, 0, 1%Z)).
  { unfold log_relative_gauss. destruct (Rlt_dec z (-6)); [lra|]. destruct (Rlt_dec 6 z); [reflexivity|lra]. }
  destruct (two_sweeps (fun w => sw_P w 0%nat = 0 /\ sw_MP w 0%nat = 0 /\ sw_logS w 0%nat = Some 0)) with (count := 49%nat) (w := start Mu Sigma)
    as (w & SW & F & WP & WM & WS); [|exact fine_start|].
  - intros w F. destruct (cavity w F) as [C1 C2]. destruct (two_step w F) as [_ ST].
    destruct (lt_one k l (sw_M w) (sw_V w) (sw_MP w 0%nat) (sw_P w 0%nat) v m (proj1 (proj2 F)) V0 C1 C2 G) as (L1 & L2 & L3 & [d L4]).
    destruct (ST d L4) as (w' & diff & O & F' & E1 & E2 & E3). exists w', diff. split; [exact O|]. split; [exact F'|]. rewrite E1, E2, E3. auto.
  - destruct (raw_of w SW F) as (s & HS & ->). f_equal. rewrite (HS _ WS), WP, WM. destruct (Req_EM_T 0 0); [|lra].
    replace (1 + 0 * v) with 1 by ring. rewrite ln_1. field.
Qed.
Lemma two_impossible : z < -6 -> raw = m_infty.
Proof.
  intros HZ. pose proof prior_positive as V0. destruct (cavity _ fine_start) as [C1 C2]. destruct (two_step _ fine_start) as [ST _].
  specialize (ST (lt_none k l _ _ _ _ v m SS V0 C1 C2 HZ)).
  unfold raw, min_faktor. change (Nat.leb 2 1) with false. cbv iota. cbn [sweeps]. change (2 - 1)%nat with 1%nat. rewrite ST. reflexivity.
Qed.
End Two.

(** ---- joint_min for two points *)
Lemma two_weights solve ldet Mu Sigma a0 a1 :
  fix_inf (fun k => fst (fst (fst (min_faktor solve ldet 2 Mu Sigma k)))) 0%nat = a0 -> fix_inf (fun k => fst (fst (fst (min_faktor solve ldet 2 Mu Sigma k)))) 1%nat = a1 ->
  let logP := fst (fst (fst (joint_min solve ldet 2 Mu Sigma))) in
  exp (logP 0%nat) = exp a0 / (exp a0 + exp a1) /\ exp (logP 1%nat) = exp a1 / (exp a0 + exp a1).
Proof.
  intros <- <- logP. unfold logP, joint_min. cbv zeta. cbn [fst]. set (f := fix_inf _). split; rewrite renormalised_exp by lia; cbn [rsum]; now rewrite Rplus_0_l.
Qed.
Theorem two_points solve ldet Mu Sigma : symmetric Sigma -> positive_definite 2 Sigma ->
  (forall B, 0 < B 0%nat 0%nat -> solve B 0%nat 0%nat = / B 0%nat 0%nat /\ ldet B = ln (B 0%nat 0%nat)) ->
  let v := (Sigma 0%nat 0%nat - 2 * Sigma 0%nat 1%nat + Sigma 1%nat 1%nat) / 2 in let m := (Mu 1%nat - Mu 0%nat) / sqrt 2 in
  let z := m / sqrt (v + / 10 ^ 25) in let logP := fst (fst (fst (joint_min solve ldet 2 Mu Sigma))) in
  (forall P, -6 <= z <= 6 -> probability_le 0 1 z P -> kept_message m v (normal 0 1 z / P) -> kept_message (- m) v (normal 0 1 z / (1 - P)) ->
     exp (logP 0%nat) = P /\ exp (logP 1%nat) = 1 - P) /\
  (6 < z -> exp (logP 1%nat) = exp (-500) * exp (logP 0%nat)) /\ (z < -6 -> exp (logP 0%nat) = exp (-500) * exp (logP 1%nat)).
Proof.
  intros SS PD LA v m z logP. pose proof sqrt2_pos as S2.
  assert (V0 : contrast 0 (other 0 0) (fun i => contrast 0 (other 0 0) (Sigma i)) = v) by (rewrite contrast2 by exact SS; unfold v, other; cbn; field).
  assert (V1 : contrast 1 (other 1 0) (fun i => contrast 1 (other 1 0) (Sigma i)) = v) by (rewrite contrast2 by exact SS; unfold v, other; cbn; rewrite (SS 1%nat 0%nat); field).
  assert (M0 : contrast 0 (other 0 0) Mu = m) by reflexivity.
  assert (M1 : contrast 1 (other 1 0) Mu = - m) by (unfold contrast, other, m; cbn; field; lra).
  assert (Z1 : - m / sqrt (v + / 10 ^ 25) = - z) by (unfold z, Rdiv; ring).
  assert (NS : normal 0 1 (- z) = normal 0 1 z). { unfold normal. f_equal. f_equal. field. }
  pose proof (two_exact Mu Sigma 0 ltac:(lia) SS PD solve ldet LA) as X0. pose proof (two_exact Mu Sigma 1 ltac:(lia) SS PD solve ldet LA) as X1.
  pose proof (two_certain Mu Sigma 0 ltac:(lia) SS PD solve ldet LA) as Y0. pose proof (two_certain Mu Sigma 1 ltac:(lia) SS PD solve ldet LA) as Y1.
  pose proof (two_impossible Mu Sigma 0 ltac:(lia) SS PD solve ldet) as W0. pose proof (two_impossible Mu Sigma 1 ltac:(lia) SS PD solve ldet) as W1.
  rewrite V0, M0 in X0, Y0, W0. rewrite V1, M1 in X1, Y1, W1. rewrite Z1 in X1, Y1, W1. fold z in X0, Y0, W0. rewrite cdf_sym, NS in X1.
  split; [|split].
  - intros P HZ HP K0 K1. rewrite (cdf_le_unique z P HP) in *. specialize (X0 HZ K0). specialize (X1 ltac:(lra) K1).
    destruct (two_weights solve ldet Mu Sigma (ln (cdf z)) (ln (1 - cdf z))) as [E0 E1]; [unfold fix_inf; now rewrite X0|unfold fix_inf; now rewrite X1|].
    fold logP in E0, E1. pose proof (cdf_pos z). pose proof (cdf_lt_1 z). rewrite !exp_ln in E0, E1 by lra. split; [rewrite E0|rewrite E1]; field; lra.
  - intros HZ. specialize (Y0 HZ). specialize (W1 ltac:(lra)).
    destruct (two_weights solve ldet Mu Sigma 0 (-500)) as [E0 E1]; [unfold fix_inf; now rewrite Y0|unfold fix_inf; now rewrite W1|]. fold logP in E0, E1. rewrite E0, E1, exp_0. pose proof (exp_pos (-500)). field. lra.
  - intros HZ. specialize (W0 HZ). specialize (Y1 ltac:(lra)).
    destruct (two_weights solve ldet Mu Sigma (-500) 0) as [E0 E1]; [unfold fix_inf; now rewrite W0|unfold fix_inf; now rewrite Y1|]. fold logP in E0, E1. rewrite E0, E1, exp_0. pose proof (exp_pos (-500)). field. lra.
Qed.

(** ---- infinite log-weights *)
Theorem infinite_weights solve ldet D Mu Sigma : (0 < D)%nat ->
  let raw := fun k => fst (fst (fst (min_faktor solve ldet D Mu Sigma k))) in let logP := fst (fst (fst (joint_min solve ldet D Mu Sigma))) in
  (forall i j a b, raw i = Finite a -> raw j = Finite b -> exp (logP i) * exp b = exp (logP j) * exp a) /\
  (forall i j b, raw i = m_infty -> raw j = Finite b -> exp (logP i) * exp b = exp (logP j) * exp (-500)).
Proof.
  intros DP raw logP. unfold logP, joint_min. cbv zeta. cbn [fst]. fold raw. split.
  - intros i j a b I J. pose proof (normalised_ratio D (fix_inf raw) i j DP) as H. unfold fix_inf at 2 4 in H. rewrite I, J in H. exact H.
  - intros i j b I J. pose proof (normalised_ratio D (fix_inf raw) i j DP) as H. unfold fix_inf at 2 4 in H. rewrite I, J in H. exact H.
Qed.
Theorem single_point solve ldet Mu Sigma : let '(logP, dMu, dSigma, dMuMu) := joint_min solve ldet 1 Mu Sigma in
  logP 0%nat = 0 /\ dMu 0%nat 0%nat = 0 /\ dSigma 0%nat 0%nat = 0 /\ dMuMu 0%nat 0%nat 0%nat = 0.
Proof.
  unfold joint_min, min_faktor. change (Nat.leb 1 1) with true. cbv zeta iota. cbn [fst snd].
  split; [|split; [|split]].
  - pose proof (joint_min_one solve ldet Mu Sigma) as H. unfold joint_min, min_faktor in H. exact H.
  - unfold adjusted, Zvec, rot90_3, rot90_1. cbn. field. pose proof (exp_pos (-500)). lra.
  - unfold adjusted, Zvec, rot90_3, rot90_1. cbn. field. pose proof (exp_pos (-500)). lra.
  - unfold adjusted2, Zvec, rot90_3, rot90_1. cbn. field. pose proof (exp_pos (-500)). lra.
Qed.

(** ---- the predicted log-probabilities: the second order expansion, with the square of the sample replaced by 1 *)
Theorem second_order N (E : es_par) W dm dv s k (f : vect -> matr -> R) (mu : vect) (V G : matr) : (forall i j, dv i j = dv j i) ->
  es_dSigma E k = packed N (halved G) ->
  (forall mu' V', f mu' V' = es_logP E k + sum_to N (fun i => es_dMu E k i * (mu' i - mu i))
     + / 2 * sum_to N (fun i => sum_to N (fun j => es_dMudMu E k i j * ((mu' i - mu i) * (mu' j - mu j))))
     + / 2 * sum_to N (fun i => sum_to N (fun j => G i j * (V' i j - V i j)))) ->
  predicted_logP N E W dm dv s k =
    f (fun i => mu i + W s * dm i) (fun i j => V i j + dv i j) + / 2 * (1 - W s * W s) * sum_to N (fun i => sum_to N (fun j => es_dMudMu E k i j * (dm i * dm j))).
Proof.
  intros SV PK F. rewrite F. unfold predicted_logP. cbv zeta. rewrite PK, (pairing N G dv SV), !sum_to_rsum. unfold dot.
  rewrite (rsum_ext N (fun i => es_dMu E k i * (mu i + W s * dm i - mu i)) (fun i => W s * (es_dMu E k i * dm i))) by (intros; ring). rewrite rsum_scal.
  set (T := rsum N (fun i => sum_to N (fun j => es_dMudMu E k i j * (dm i * dm j)))).
  replace (rsum N (fun i => rsum N (fun j => es_dMudMu E k i j * (dm i * dm j)))) with T by (apply rsum_ext; intros; now rewrite sum_to_rsum).
  replace (rsum N (fun i => sum_to N (fun j => es_dMudMu E k i j * ((mu i + W s * dm i - mu i) * (mu j + W s * dm j - mu j))))) with (W s * W s * T).
  2:{ unfold T. rewrite <- rsum_scal. apply rsum_ext. intros i _. rewrite !sum_to_rsum, <- rsum_scal. apply rsum_ext. intros. ring. }
  replace (rsum N (fun i => sum_to N (fun j => G i j * (V i j + dv i j - V i j)))) with (rsum N (fun i => sum_to N (fun j => G i j * dv i j))).
  2:{ apply rsum_ext. intros i _. rewrite !sum_to_rsum. apply rsum_ext. intros. ring. }
  field.
Qed.
