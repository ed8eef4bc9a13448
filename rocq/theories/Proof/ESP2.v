(** Entropy search: expectation propagation, derivatives of log Z, the life of the acquisition. *)
From Coq Require Import Reals Lra Psatz List Lia Bool Arith ZArith.
From Coquelicot Require Import Coquelicot.
From Verif.Model Require Import AcqR ES.
From Verif.Spec Require Import RSpec ESSpec.
From Verif.Proof Require Import Gauss GaussP AcqP AcqM ESP.
Import ListNotations.
Local Open Scope R_scope.

Lemma sqrt2_sq : sqrt 2 * sqrt 2 = 2. Proof. apply sqrt_sqrt. lra. Qed.
Lemma sqrt2_pos : 0 < sqrt 2. Proof. apply sqrt_lt_R0. lra. Qed.
Lemma weighted_rsum D l f : weighted D l f = rsum D (fun m => exp (l m) * f m) / rsum D (fun m => exp (l m)).
Proof. unfold weighted. now rewrite !sum_to_rsum. Qed.
Lemma second_eq D l J H k i j : (i < D)%nat -> (j < D)%nat -> second_true D l J H k i j = second D l J H k i j.
Proof.
  intros I Jj. unfold second_true, second. rewrite !weighted_rsum, !Zvec_spec by assumption. rewrite (rsum_ext D (fun m => (H m i j + J m i * J m j) * exp (l m)) (fun m => exp (l m) * (H m i j + J m i * J m j))) by (intros; ring). reflexivity.
Qed.

(** ---- log_relative_gauss *)
Theorem relative_gauss z : -6 <= z <= 6 ->
  log_relative_gauss z = (normal 0 1 z / cdf z, ln (cdf z), 0%Z).
Proof.
  intros H. unfold log_relative_gauss. destruct (Rlt_dec z (-6)); [lra|]. destruct (Rlt_dec 6 z); [lra|]. cbv zeta.
  change (/ 2 * erfc (- z / sqrt 2)) with (cdf z). do 2 f_equal. unfold Rminus. rewrite exp_plus, exp_Ropp, exp_ln by apply cdf_pos.
  unfold Rdiv. f_equal. unfold normal. replace (z - 0) with z by ring. replace (z / 1) with z by field. rewrite Rmult_1_l.
  rewrite <- ln_mult by (try apply PI_RGT_0; lra). replace (- / 2 * (z * z + ln (2 * PI))) with (- (z * z) / 2 + - (/ 2 * ln (2 * PI))) by field.
  rewrite exp_plus. unfold Rdiv. f_equal. rewrite exp_Ropp. f_equal.
  assert (0 < 2 * PI) by (pose proof PI_RGT_0; lra). rewrite <- (exp_ln (sqrt (2 * PI))) by (apply sqrt_lt_R0; assumption). f_equal.
  apply (Rmult_eq_reg_l 2); [|lra]. rewrite <- (sqrt_sqrt (2 * PI)) at 1 by lra. rewrite ln_mult by (apply sqrt_lt_R0; assumption). field.
Qed.

(** ---- the update of one message *)
Lemma ep_algebra (V : matr) (M : vect) s l dp dmp cVc cM : symmetric V ->
  cVc = (V l l - 2 * V s l + V s s) / 2 -> cM = (M l - M s) / sqrt 2 ->
  let Vc := fun i => (V i l - V i s) / sqrt 2 in
  let V' := fun i j => V i j - dp / (1 + dp * cVc) * (Vc i * Vc j) in
  let M' := fun i => M i + (dmp - cM * dp) / (1 + dp * cVc) * Vc i in
  1 + dp * cVc <> 0 ->
  (forall i j, V' i j + dp * contrast s l (V i) * contrast s l (fun a => V' a j) = V i j) /\
  (forall i, M' i + dp * contrast s l (V i) * contrast s l M' = M i + dmp * contrast s l (V i)) /\ symmetric V'.
Proof.
  intros SV EC EM Vc V' M' N. pose proof sqrt2_sq as S2. pose proof sqrt2_pos as P2.
  assert (CC : (Vc l - Vc s) / sqrt 2 = cVc).
  { unfold Vc. rewrite EC, (SV l s). replace (((V l l - V s l) / sqrt 2 - (V s l - V s s) / sqrt 2) / sqrt 2) with ((V l l - 2 * V s l + V s s) / (sqrt 2 * sqrt 2)) by (field; lra). now rewrite S2. }
  assert (CV : forall j, (V l j - V s j) / sqrt 2 = Vc j) by (intros j; unfold Vc; now rewrite (SV l j), (SV s j)).
  split; [|split].
  - intros i j. unfold contrast, V'. change ((V i l - V i s) / sqrt 2) with (Vc i).
    replace ((V l j - dp / (1 + dp * cVc) * (Vc l * Vc j) - (V s j - dp / (1 + dp * cVc) * (Vc s * Vc j))) / sqrt 2)
      with ((V l j - V s j) / sqrt 2 - dp / (1 + dp * cVc) * ((Vc l - Vc s) / sqrt 2) * Vc j) by (field; split; lra).
    rewrite CC, CV. field. exact N.
  - intros i. unfold contrast, M'. change ((V i l - V i s) / sqrt 2) with (Vc i).
    replace ((M l + (dmp - cM * dp) / (1 + dp * cVc) * Vc l - (M s + (dmp - cM * dp) / (1 + dp * cVc) * Vc s)) / sqrt 2)
      with ((M l - M s) / sqrt 2 + (dmp - cM * dp) / (1 + dp * cVc) * ((Vc l - Vc s) / sqrt 2)) by (field; split; lra).
    rewrite CC, <- EM. field. exact N.
  - intros i j. unfold V'. rewrite (SV i j). ring.
Qed.
Theorem ep_update s l M V mp p gamma : symmetric V -> fa_d (lt_factor s l M V mp p gamma) <> None ->
  let q := lt_factor s l M V mp p gamma in
  let dp := fa_p q - p in let dmp := fa_mp q - mp in
  1 + dp * contrast s l (fun i => contrast s l (V i)) <> 0 ->
  (forall i j, fa_V q i j + dp * contrast s l (V i) * contrast s l (fun a => fa_V q a j) = V i j) /\
  (forall i, fa_M q i + dp * contrast s l (V i) * contrast s l (fa_M q) = M i + dmp * contrast s l (V i)) /\ symmetric (fa_V q).
Proof.
  intros SV FD.
  assert (CE : contrast s l (fun i => contrast s l (V i)) = (V l l - 2 * V s l + V s s) / 2).
  { unfold contrast. rewrite (SV l s). pose proof sqrt2_sq as S2. pose proof sqrt2_pos.
    replace (((V l l - V s l) / sqrt 2 - (V s l - V s s) / sqrt 2) / sqrt 2) with ((V l l - 2 * V s l + V s s) / (sqrt 2 * sqrt 2)) by (field; lra). now rewrite S2. }
  rewrite CE. revert FD. unfold lt_factor. cbv zeta.
  set (cVc := (V l l - 2 * V s l + V s s) / 2). set (cM := (M l - M s) / sqrt 2).
  destruct (log_relative_gauss _) as [[e lP] fl]. destruct (Z.eqb fl 0); [|destruct (Z.eqb fl (-1))].
  - cbn [fa_d fa_p fa_mp fa_V fa_M]. intros _. set (dp := Rmax (- p + eps32) _). set (dmp := Rmax (- mp + eps32) _).
    replace (p + dp - p) with dp by ring. replace (mp + dmp - mp) with dmp by ring. intros N. now apply ep_algebra.
  - cbn [fa_d]. congruence.
  - cbn [fa_d fa_p fa_mp fa_V fa_M]. intros _ N. replace (0 - p) with (- p) in * by ring. replace (0 - mp) with (- mp) by ring. now apply ep_algebra.
Qed.
Lemma eps32_pos : 0 < eps32. Proof. apply Rinv_0_lt_compat, pow_lt. lra. Qed.
Lemma message_nonneg s l M V mp p gamma : fa_d (lt_factor s l M V mp p gamma) <> None -> 0 <= fa_p (lt_factor s l M V mp p gamma).
Proof.
  unfold lt_factor. cbv zeta. destruct (log_relative_gauss _) as [[e lP] fl]. destruct (Z.eqb fl 0); [|destruct (Z.eqb fl (-1))]; cbn [fa_d fa_p]; intros H.
  - pose proof eps32_pos. pose proof (Rmax_l (- p + eps32) (gamma * (e / sqrt (Rmax ((V l l - 2 * V s l + V s s) / 2 / (1 - p * ((V l l - 2 * V s l + V s s) / 2))) 0) * 0))) as _.
    match goal with |- 0 <= p + Rmax ?a ?b => pose proof (Rmax_l a b) end. lra.
  - congruence.
  - lra.
Qed.
Lemma message_symmetric s l M V mp p gamma : symmetric V -> symmetric (fa_V (lt_factor s l M V mp p gamma)).
Proof.
  intros SV. unfold lt_factor. cbv zeta. destruct (log_relative_gauss _) as [[e lP] fl]. destruct (Z.eqb fl 0); [|destruct (Z.eqb fl (-1))]; cbn [fa_V]; intros i j; try rewrite (SV i j); ring.
Qed.
Lemma one_sweep_inv todo : forall i k gamma w diff w' diff', (forall j, 0 <= sw_P w j) -> symmetric (sw_V w) ->
  one_sweep todo i k gamma w diff = Some (w', diff') -> (forall j, 0 <= sw_P w' j) /\ symmetric (sw_V w').
Proof.
  induction todo as [|todo IH]; intros i k gamma w diff w' diff' P SV E; cbn [one_sweep] in E.
  - now injection E as <- _.
  - set (l := if Nat.ltb i k then i else S i) in *.
    destruct (fa_d (lt_factor k l (sw_M w) (sw_V w) (sw_MP w i) (sw_P w i) gamma)) as [d|] eqn:FD; [|discriminate].
    apply IH in E; [exact E| |]; cbn [sw_P sw_V].
    + intros j. unfold fset. destruct (Nat.eqb j i); [|apply P]. apply message_nonneg. congruence.
    + now apply message_symmetric.
Qed.
Theorem sweeps_inv count : forall D k gamma w w', (forall j, 0 <= sw_P w j) -> symmetric (sw_V w) ->
  sweeps count D k gamma w = Some w' -> (forall j, 0 <= sw_P w' j) /\ symmetric (sw_V w').
Proof.
  induction count as [|count IH]; intros D k gamma w w' P SV E; cbn [sweeps] in E; [now injection E as <-|].
  destruct (one_sweep (D - 1) 0 k gamma w 0) as [[w1 diff]|] eqn:O; [|discriminate].
  destruct (one_sweep_inv _ _ _ _ _ _ _ _ P SV O) as [P1 S1]. destruct (Rlt_dec _ _); [injection E as <-; now split|]. exact (IH D k gamma w1 w' P1 S1 E).
Qed.

(** ---- derivatives of log Z with the messages fixed *)
Definition delta (k i : nat) : R := if Nat.eqb k i then 1 else 0.
Lemma rsum_delta n i f : (i < n)%nat -> rsum n (fun k => delta k i * f k) = f i.
Proof.
  unfold delta. induction n as [|n IH]; intros H; [lia|]. cbn [rsum]. destruct (Nat.eqb_spec n i) as [->|NE].
  - rewrite (rsum_ext _ _ (fun _ => 0)); [rewrite rsum_zero; ring|]. intros k K. destruct (Nat.eqb_spec k i); [lia|ring].
  - rewrite IH by lia. ring.
Qed.
Lemma upd_derive (v : vect) i k x : is_derive (fun t => upd v i t k) x (delta k i).
Proof. unfold upd, delta. destruct (Nat.eqb k i); [apply d_id|apply d_const]. Qed.
Lemma Amat_sym D k P inv : symmetric (Amat D k P inv).
Proof. intros i j. unfold Amat. ring. Qed.
Section LogZ.
Variables (D : nat) (Sigma : matr) (r : vect) (A : matr) (logdet s mp : R).
Hypothesis AS : symmetric A.
Lemma b_derive Mu i k : is_derive (fun t => bvec D (upd Mu i t) Sigma r k) (Mu i) (delta k i).
Proof.
  unfold bvec. eapply d_eq; [apply d_plus; [apply upd_derive|apply d_const]|]. ring.
Qed.
Lemma b_self Mu i k : bvec D (upd Mu i (Mu i)) Sigma r k = bvec D Mu Sigma r k.
Proof. unfold bvec. now rewrite upd_self. Qed.
Lemma Ab_derive Mu i k : (i < D)%nat -> is_derive (fun t => mvec D A (bvec D (upd Mu i t) Sigma r) k) (Mu i) (A k i).
Proof.
  intros I. unfold mvec, dot. eapply d_eq.
  - apply (d_rsum D (fun j t => A k j * bvec D (upd Mu i t) Sigma r j) (fun j => A k j * delta j i)). intros j _. apply d_scal. apply b_derive.
  - rewrite (rsum_ext _ _ (fun j => delta j i * A k j)) by (intros; ring). now apply rsum_delta.
Qed.
Theorem logZ_slope Mu i : (i < D)%nat -> slope (fun m => logZ D m Sigma r A logdet s mp) Mu i (dlogZdMu D Mu Sigma r A i).
Proof.
  intros I. unfold slope, logZ. cbv zeta. set (b := bvec D Mu Sigma r).
  assert (Q : is_derive (fun t => dot D (bvec D (upd Mu i t) Sigma r) (mvec D A (bvec D (upd Mu i t) Sigma r))) (Mu i) (2 * mvec D A b i)).
  { unfold dot at 1. eapply d_eq.
    - apply (d_rsum D (fun k t => bvec D (upd Mu i t) Sigma r k * mvec D A (bvec D (upd Mu i t) Sigma r) k) (fun k => delta k i * mvec D A b k + b k * A k i)).
      intros k _. eapply d_eq; [apply d_mult; [apply b_derive|now apply Ab_derive]|]. cbv beta. rewrite b_self. f_equal. f_equal. unfold mvec, dot. apply rsum_ext. intros j _. now rewrite b_self.
    - rewrite rsum_plus, rsum_delta by exact I. unfold mvec, dot. rewrite (rsum_ext _ (fun k => b k * A k i) (fun k => A i k * b k)) by (intros k _; rewrite (AS k i); ring). ring. }
  assert (L : is_derive (fun t => dot D (upd Mu i t) r) (Mu i) (r i)).
  { unfold dot. eapply d_eq.
    - apply (d_rsum D (fun k t => upd Mu i t k * r k) (fun k => delta k i * r k)). intros k _. eapply d_eq; [apply d_mult; [apply upd_derive|apply d_const]|]. cbv beta. ring.
    - now apply rsum_delta. }
  eapply d_eq.
  - apply d_minus; [|apply d_const]. apply d_plus; [|apply d_const]. apply d_plus; [|exact L].
    apply d_scal. apply d_minus; [|apply d_const]. apply d_minus; [apply d_const|exact Q].
  - unfold dlogZdMu. fold b. field.
Qed.
Theorem dlogZ_slope Mu i j : (i < D)%nat -> (j < D)%nat -> slope (fun m => dlogZdMu D m Sigma r A i) Mu j (dlogZdMudMu A i j).
Proof.
  intros I J. unfold slope, dlogZdMu, dlogZdMudMu. eapply d_eq; [apply d_minus; [apply d_const|now apply Ab_derive]|]. ring.
Qed.
End LogZ.

(** ---- the life of the acquisition *)
Fixpoint surrogate_after {X B} (ops : list (es_op X B)) (b : B) : B :=
  match ops with [] => b | EsModel b' :: r => surrogate_after r b' | EsEval _ :: r => surrogate_after r b end.
Section Life.
Context {X B Par V : Type}.
Variables (updp : B -> Par) (val : Par -> B -> X -> V).
Lemma es_run_app ops1 : forall ops2 par b vs1 par1 b1, es_run updp val ops1 par b = (vs1, par1, b1) ->
  es_run updp val (ops1 ++ ops2) par b = (let '(vs2, par2, b2) := es_run updp val ops2 par1 b1 in (vs1 ++ vs2, par2, b2)).
Proof.
  induction ops1 as [|[x|b'] ops1 IH]; intros ops2 par b vs1 par1 b1 E; cbn [es_run app] in *.
  - injection E as <- <- <-. destruct (es_run updp val ops2 par b) as [[? ?] ?]. reflexivity.
  - destruct (es_run updp val ops1 _ b) as [[vs p'] b''] eqn:R. injection E as <- <- <-. rewrite (IH ops2 _ _ _ _ _ R).
    destruct (es_run updp val ops2 p' b'') as [[? ?] ?]. reflexivity.
  - now apply IH.
Qed.
Lemma es_run_kept ops : forall p b, exists vs, es_run updp val ops (Some p) b = (vs, Some p, surrogate_after ops b).
Proof.
  induction ops as [|[x|b'] ops IH]; intros p b; cbn [es_run surrogate_after].
  - now exists [].
  - destruct (IH p b) as [vs ->]. now exists (val p b x :: vs).
  - apply IH.
Qed.
Theorem es_stale b0 x0 ops x : exists vs,
  es_run updp val (EsEval x0 :: ops ++ [EsEval x]) None b0 = (vs ++ [val (updp b0) (surrogate_after ops b0) x], Some (updp b0), surrogate_after ops b0).
Proof.
  cbn [es_run]. destruct (es_run_kept ops (updp b0) b0) as [vs E]. rewrite (es_run_app ops [EsEval x] _ _ _ _ _ E). cbn [es_run].
  exists (val (updp b0) b0 x0 :: vs). reflexivity.
Qed.
Theorem es_first ops b0 x : (forall o, In o ops -> exists b, o = EsModel b) ->
  es_run updp val (ops ++ [EsEval x]) None b0 =
    ([val (updp (surrogate_after ops b0)) (surrogate_after ops b0) x], Some (updp (surrogate_after ops b0)), surrogate_after ops b0).
Proof.
  revert b0. induction ops as [|o ops IH]; intros b0 H; [reflexivity|]. destruct (H o (or_introl eq_refl)) as [b ->]. cbn [app es_run surrogate_after].
  apply IH. intros; apply H. now right.
Qed.
End Life.

(** ---- representer points *)
Theorem proposal bounds ei x : length x = length bounds -> 0 < ei ->
  (List.Forall (fun p => fst (fst p) <= snd p <= snd (fst p)) (combine bounds x) -> prop_func bounds ei x = Finite (ln ei)) /\
  (~ List.Forall (fun p => fst (fst p) <= snd p <= snd (fst p)) (combine bounds x) -> prop_func bounds ei x = m_infty).
Proof.
  intros _ P. unfold prop_func. destruct (forallb _ (combine bounds x)) eqn:F.
  - split.
    + intros _. destruct (Rlt_dec ei 0); [lra|]. destruct (Req_EM_T ei 0); [lra|reflexivity].
    + intros N. exfalso. apply N. apply List.Forall_forall. intros [[lo hi] v] I. rewrite forallb_forall in F. specialize (F _ I). cbn in F |- *.
      apply andb_prop in F. destruct F as [F1 F2]. destruct (Rle_dec lo v); [|discriminate]. destruct (Rle_dec v hi); [lra|discriminate].
  - split; [|reflexivity]. intros N. exfalso. rewrite List.Forall_forall in N.
    assert (T : forallb (fun p => let '((lo, hi), v) := p in (if Rle_dec lo v then true else false) && (if Rle_dec v hi then true else false)) (combine bounds x) = true).
    { apply forallb_forall. intros [[lo hi] v] I. specialize (N _ I). cbn in N. destruct (Rle_dec lo v); [|lra]. destruct (Rle_dec v hi); [reflexivity|lra]. }
    congruence.
Qed.

(** ---- the acquisition *)
Lemma ln_le_sub u : 0 < u -> ln u <= u - 1.
Proof. intros H. pose proof (exp_ineq1_le (ln u)). rewrite exp_ln in * by exact H. lra. Qed.
(** Gibbs: sum P (ln P + r) >= - ln sum exp(-r) when the P are positive and sum to 1. *)
Lemma gibbs N (P r : vect) : (0 < N)%nat -> (forall k, (k < N)%nat -> 0 < P k) -> rsum N P = 1 ->
  - ln (rsum N (fun k => exp (- r k))) <= rsum N (fun k => P k * (ln (P k) + r k)).
Proof.
  intros NP PP S. set (Z := rsum N (fun k => exp (- r k))). assert (ZP : 0 < Z) by (apply rsum_pos; [exact NP|intros; apply exp_pos]).
  assert (T : forall k, (k < N)%nat -> P k - exp (- r k) / Z <= P k * (ln (P k) + r k) + P k * ln Z).
  { intros k K. specialize (PP k K). set (u := exp (- r k) / Z / P k). assert (UP : 0 < u) by (apply Rdiv_lt_0_compat; [apply Rdiv_lt_0_compat; [apply exp_pos|exact ZP]|exact PP]).
    pose proof (ln_le_sub u UP) as L. assert (E : ln u = - r k - ln Z - ln (P k)).
    { unfold u, Rdiv. pose proof (exp_pos (- r k)). pose proof (Rinv_0_lt_compat _ ZP). pose proof (Rinv_0_lt_compat _ PP).
      rewrite ln_mult by (try assumption; now apply Rmult_lt_0_compat). rewrite ln_mult by assumption. rewrite ln_exp, !ln_Rinv by assumption. ring. }
    rewrite E in L. apply (Rmult_le_compat_l (P k)) in L; [|lra]. replace (P k * (u - 1)) with (exp (- r k) / Z - P k) in L by (unfold u; field; lra). lra. }
  assert (LE : forall n f g, (forall k, (k < n)%nat -> f k <= g k) -> rsum n f <= rsum n g).
  { induction n as [|n IH]; intros f g H; cbn [rsum]; [lra|]. specialize (IH f g ltac:(intros; apply H; lia)). specialize (H n ltac:(lia)). lra. }
  specialize (LE N _ _ T). rewrite rsum_minus, rsum_plus in LE. rewrite S in LE.
  rewrite (rsum_ext _ (fun k => exp (- r k) / Z) (fun k => / Z * exp (- r k))) in LE by (intros; unfold Rdiv; ring). rewrite rsum_scal in LE. fold Z in LE.
  rewrite Rinv_l in LE by lra. rewrite (rsum_ext _ (fun k => P k * ln Z) (fun k => ln Z * P k)) in LE by (intros; ring). rewrite rsum_scal, S in LE. lra.
Qed.
Theorem es_acq_bound N S E W cov stdev : (0 < N)%nat -> (0 < S)%nat ->
  - ln (sum_to N (fun k => exp (- es_log E k))) <= es_acq N S E W cov stdev.
Proof.
  intros NP SP. rewrite sum_to_rsum. unfold es_acq, innovations. set (c := - ln _).
  assert (IS : 0 < INR S) by (apply lt_0_INR; lia).
  assert (LE : forall n f, (forall k, (k < n)%nat -> c <= f k) -> INR n * c <= rsum n f).
  { induction n as [|n IH]; intros f H; [cbn; lra|]. rewrite S_INR. cbn [rsum]. specialize (IH f ltac:(intros; apply H; lia)). specialize (H n ltac:(lia)). lra. }
  apply (Rmult_le_reg_r (INR S)); [exact IS|]. unfold Rdiv. rewrite Rmult_assoc, Rinv_l by lra. rewrite Rmult_1_r, Rmult_comm.
  apply LE. intros s _. set (l := predicted_logP _ _ _ _ _ s). pose proof (gibbs N (fun k => exp (renormalised N l k)) (es_log E) NP) as G.
  rewrite (rsum_ext N (fun k => exp (renormalised N l k) * (renormalised N l k + es_log E k)) (fun k => exp (renormalised N l k) * (ln (exp (renormalised N l k)) + es_log E k))) by (intros; now rewrite ln_exp).
  apply G; [intros; apply exp_pos|]. rewrite <- sum_to_rsum. now apply normalised.
Qed.

(** ---- joint_min *)
Theorem joint_min_normalised solve ldet D Mu Sigma : (0 < D)%nat ->
  let logP := fst (fst (fst (joint_min solve ldet D Mu Sigma))) in
  (forall k, 0 < exp (logP k)) /\ sum_to D (fun k => exp (logP k)) = 1.
Proof. intros H logP. split; [intros; apply exp_pos|]. unfold logP, joint_min. cbv zeta. cbn [fst]. now apply normalised. Qed.
Theorem joint_min_one solve ldet Mu Sigma : fst (fst (fst (joint_min solve ldet 1 Mu Sigma))) 0%nat = 0.
Proof.
  pose proof (proj2 (joint_min_normalised solve ldet 1 Mu Sigma ltac:(lia))) as H. rewrite sum_to_rsum in H. cbn [rsum] in H. rewrite Rplus_0_l in H.
  rewrite <- exp_0 in H. now apply exp_inv.
Qed.
(** The marginals and messages of the sweeps started by min_faktor. *)
Theorem min_faktor_messages count D k Mu Sigma w : symmetric Sigma -> sweeps count D k 1 (start Mu Sigma) = Some w ->
  (forall j, 0 <= sw_P w j) /\ symmetric (sw_V w).
Proof. intros S E. apply (sweeps_inv count D k 1 (start Mu Sigma) w); [intros; apply Rle_refl|exact S|exact E]. Qed.

(** ---- second derivatives: guarded, and a witness *)
Theorem second_slope' D (F : (nat -> R) -> nat -> R) v (J : (nat -> R) -> nat -> nat -> R) (H : nat -> nat -> nat -> R) : (0 < D)%nat ->
  (forall i k, F (upd v i (v i)) k = F v k) -> (forall i k j, J (upd v i (v i)) k j = J v k j) ->
  (forall k i, (k < D)%nat -> (i < D)%nat -> slope (fun w => F w k) v i (J v k i)) ->
  (forall k i j, (k < D)%nat -> (i < D)%nat -> (j < D)%nat -> slope (fun w => J w k i) v j (H k i j)) ->
  forall k i j, (k < D)%nat -> (i < D)%nat -> (j < D)%nat ->
    (slope (fun w => adjusted D D (F w) (J w) k i) v j (adjusted2 D (F v) (J v) H k i j) <->
     weighted D (F v) (fun m => J v m j) = 0 \/ weighted D (F v) (fun m => J v m j) = weighted D (F v) (fun m => J v m i)).
Proof.
  intros DP FX JX HJ HH k i j K I Jj. pose proof (second_slope D F v J H DP FX JX HJ HH k i j K I Jj) as T.
  rewrite !weighted_rsum. rewrite <- !(Zvec_spec D D (F v)) by assumption.
  set (zi := Zvec D D (F v) (J v) i). set (zj := Zvec D D (F v) (J v) j).
  split.
  - intros C. assert (E : adjusted2 D (F v) (J v) H k i j = second_true D (F v) (J v) H k i j).
    { unfold slope in *. apply is_derive_unique in C. apply is_derive_unique in T. congruence. }
    apply second_code_iff in E. fold zi zj in E. destruct (Req_dec zj 0) as [Z|Z]; [now left|right]. apply (Rmult_eq_reg_r zj); [exact E|exact Z].
  - intros O. assert (E : adjusted2 D (F v) (J v) H k i j = second_true D (F v) (J v) H k i j).
    { apply second_code_iff. fold zi zj. destruct O as [Q|Q]; rewrite Q; ring. }
    now rewrite E.
Qed.
