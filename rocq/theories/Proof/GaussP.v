(** The normal distribution function: derivative, limits, range, expectations. *)
From Coq Require Import Reals Lra Psatz List.
From Coquelicot Require Import Coquelicot.
From Verif.Model Require Import AcqR.
From Verif.Spec Require Import RSpec.
From Verif.Proof Require Import Gauss.
Local Open Scope R_scope.

Definition phi (u : R) : R := exp (- / 2 * (u * u)) / sqrt (2 * PI).
Lemma s2_pos : 0 < sqrt 2. Proof. apply sqrt_lt_R0. lra. Qed.
Lemma sPI_pos : 0 < sqrt PI. Proof. apply sqrt_lt_R0, PI_RGT_0. Qed.
Lemma s2PI : sqrt (2 * PI) = sqrt 2 * sqrt PI. Proof. apply sqrt_mult; [lra|left; apply PI_RGT_0]. Qed.
Lemma s2PI_pos : 0 < sqrt (2 * PI). Proof. rewrite s2PI. apply Rmult_lt_0_compat; [apply s2_pos|apply sPI_pos]. Qed.
Lemma s2_sq : sqrt 2 * sqrt 2 = 2. Proof. apply sqrt_sqrt. lra. Qed.
Lemma phi_pos u : 0 < phi u. Proof. apply Rdiv_lt_0_compat; [apply exp_pos|apply s2PI_pos]. Qed.
Lemma phi_derive u : is_derive phi u (- u * phi u).
Proof. unfold phi. pose proof s2PI_pos. auto_derive; [exact I|]. field. lra. Qed.

Lemma erfc_GI x : erfc x = 1 - 2 / sqrt PI * GI x. Proof. reflexivity. Qed.
Lemma GI_odd x : GI (- x) = - GI x.
Proof.
  assert (D : forall t, is_derive (fun x => GI (- x) + GI x) t 0).
  { intros t. evar_last.
    - apply (is_derive_plus (fun x => GI (- x)) GI t); [|apply GI_derive].
      apply (is_derive_comp GI Ropp); [apply GI_derive|]. auto_derive; [exact I|reflexivity].
    - unfold plus, scal, g2; simpl; unfold mult; simpl. replace (- t * - t) with (t * t) by ring. ring. }
  assert (E : forall a b, a < b -> GI (- a) + GI a = GI (- b) + GI b).
  { intros a b L. apply (eq_is_derive (fun x => GI (- x) + GI x) a b); [intros; apply D|exact L]. }
  assert (Z : GI (- 0) + GI 0 = 0) by (rewrite Ropp_0, GI_0; ring).
  destruct (Rtotal_order x 0) as [L|[->|L]]; [pose proof (E _ _ L)| |pose proof (E _ _ L)]; lra.
Qed.
Lemma cdf_GI x : cdf x = / 2 + / sqrt PI * GI (x / sqrt 2).
Proof.
  unfold cdf. rewrite erfc_GI. replace (- x / sqrt 2) with (- (x / sqrt 2)) by (unfold Rdiv; ring). rewrite GI_odd.
  pose proof sPI_pos. field. lra.
Qed.
Lemma cdf_derive u : is_derive cdf u (phi u).
Proof.
  apply (is_derive_ext (fun x => / 2 + / sqrt PI * GI (x / sqrt 2))). { intros t. symmetry. apply cdf_GI. }
  evar_last.
  - apply (is_derive_plus (fun _ => / 2) (fun x => / sqrt PI * GI (x / sqrt 2))); [apply is_derive_const|].
    apply (is_derive_scal (fun x => GI (x / sqrt 2)) u (/ sqrt PI)).
    apply (is_derive_comp GI (fun x => x / sqrt 2)); [apply GI_derive|]. auto_derive; [exact I|reflexivity].
  - unfold plus, scal, zero, phi, g2; simpl; unfold mult; simpl. rewrite s2PI. pose proof s2_pos. pose proof sPI_pos.
    replace (- (u / sqrt 2 * (u / sqrt 2))) with (- / 2 * (u * u)); [field; lra|].
    unfold Rdiv. replace (u * / sqrt 2 * (u * / sqrt 2)) with (u * u * / (sqrt 2 * sqrt 2)) by (field; lra). rewrite s2_sq. field.
Qed.
Lemma lin_lim_p k : 0 < k -> is_lim (fun x => k * x) p_infty p_infty.
Proof.
  intros K. evar_last; [apply (is_lim_scal_l (fun x => x) k p_infty p_infty), is_lim_id|]. simpl.
  case Rle_dec; [|lra]. intros H. case Rle_lt_or_eq_dec; [reflexivity|lra].
Qed.
Lemma lin_lim_m k : 0 < k -> is_lim (fun x => k * x) m_infty m_infty.
Proof.
  intros K. evar_last; [apply (is_lim_scal_l (fun x => x) k m_infty m_infty), is_lim_id|]. simpl.
  case Rle_dec; [|lra]. intros H. case Rle_lt_or_eq_dec; [reflexivity|lra].
Qed.
Lemma cdf_lim_p : is_lim cdf p_infty 1.
Proof.
  apply (is_lim_ext (fun x => / 2 + / sqrt PI * GI (/ sqrt 2 * x))).
  { intros x. rewrite cdf_GI. do 3 f_equal. unfold Rdiv. ring. }
  evar_last.
  - apply (is_lim_plus (fun _ => / 2) (fun x => / sqrt PI * GI (/ sqrt 2 * x)) p_infty (/ 2) (Rbar_mult (/ sqrt PI) (sqrt PI / 2))).
    + apply is_lim_const.
    + apply is_lim_scal_l. apply (is_lim_comp GI (fun x => / sqrt 2 * x) p_infty _ p_infty).
      * apply gauss_lim.
      * apply lin_lim_p. apply Rinv_0_lt_compat, s2_pos.
      * exists 0. discriminate.
    + reflexivity.
  - simpl. apply (f_equal Finite). pose proof sPI_pos. field. lra.
Qed.
Lemma cdf_sym x : cdf (- x) = 1 - cdf x.
Proof. rewrite !cdf_GI. replace (- x / sqrt 2) with (- (x / sqrt 2)) by (unfold Rdiv; ring). rewrite GI_odd. field. pose proof sPI_pos. lra. Qed.
Lemma cdf_lim_m : is_lim cdf m_infty 0.
Proof.
  apply (is_lim_ext (fun x => 1 - cdf (- x))). { intros x. rewrite cdf_sym. ring. }
  evar_last.
  - apply (is_lim_minus (fun _ => 1) (fun x => cdf (- x)) m_infty 1 1).
    + apply is_lim_const.
    + apply (is_lim_comp cdf Ropp m_infty 1 p_infty); [apply cdf_lim_p| |exists 0; discriminate].
      evar_last; [apply (is_lim_opp (fun x => x) m_infty m_infty), is_lim_id|reflexivity].
    + reflexivity.
  - simpl. apply (f_equal Finite). ring.
Qed.

(** A function with positive derivative everywhere is strictly increasing. *)
Lemma incr_of_derive (f df : R -> R) : (forall x, is_derive f x (df x)) -> (forall x, 0 < df x) -> forall a b, a < b -> f a < f b.
Proof.
  intros D P a b L. destruct (MVT_gen f a b df) as (c & _ & E).
  - intros x _. apply D.
  - intros x _. apply continuity_pt_filterlim. apply cont_of_derive. eexists. apply D.
  - specialize (P c). assert (0 < df c * (b - a)) by (apply Rmult_lt_0_compat; lra). lra.
Qed.
Lemma cdf_incr a b : a < b -> cdf a < cdf b.
Proof. apply (incr_of_derive cdf phi); [apply cdf_derive|apply phi_pos]. Qed.
Lemma cdf_pos x : 0 < cdf x.
Proof.
  apply Rle_lt_trans with (cdf (x - 1)); [|apply cdf_incr; lra].
  apply (is_lim_le_loc cdf (fun _ => cdf (x - 1)) m_infty 0 (cdf (x - 1))); [exists (x - 1)|apply cdf_lim_m|apply is_lim_const].
  intros y H. left. now apply cdf_incr.
Qed.
Lemma cdf_lt_1 x : cdf x < 1.
Proof. pose proof (cdf_pos (- x)). rewrite cdf_sym in H. lra. Qed.
Lemma cdf_0 : cdf 0 = / 2.
Proof. pose proof (cdf_sym 0). rewrite Ropp_0 in H. lra. Qed.

Lemma phi_lim_m : is_lim phi m_infty 0.
Proof.
  apply (is_lim_ext (fun x => / sqrt (2 * PI) * g2 (- x / sqrt 2))).
  { intros x. unfold phi, g2. pose proof s2_pos. pose proof s2PI_pos. unfold Rdiv at 3. rewrite Rmult_comm. f_equal. f_equal.
    replace (- (- x / sqrt 2 * (- x / sqrt 2))) with (- (x * x * / (sqrt 2 * sqrt 2))) by (field; lra). rewrite s2_sq. field. }
  evar_last.
  - apply (is_lim_scal_l (fun x => g2 (- x / sqrt 2)) (/ sqrt (2 * PI)) m_infty 0).
    apply (is_lim_comp g2 (fun x => - x / sqrt 2) m_infty 0 p_infty); [apply g2_lim| |exists 0; discriminate].
    apply (is_lim_ext (fun x => - (/ sqrt 2 * x))). { intros. unfold Rdiv. ring. }
    evar_last; [apply (is_lim_opp (fun x => / sqrt 2 * x) m_infty m_infty), lin_lim_m; apply Rinv_0_lt_compat, s2_pos|reflexivity].
  - simpl. apply (f_equal Finite). ring.
Qed.

Lemma normal_phi m s y : 0 < s -> normal m s y = phi ((y - m) / s) / s.
Proof.
  intros S. unfold normal, phi. pose proof s2PI_pos.
  replace (- ((y - m) / s * ((y - m) / s)) / 2) with (- / 2 * ((y - m) / s * ((y - m) / s))) by (field; lra). field. lra.
Qed.
Lemma std_lim m s : 0 < s -> is_lim (fun y => (y - m) / s) m_infty m_infty.
Proof.
  intros S. apply (is_lim_ext (fun y => / s * y + - (m / s))). { intros. field. lra. }
  evar_last; [apply (is_lim_plus (fun y => / s * y) (fun _ => - (m / s)) m_infty m_infty (- (m / s)))|].
  - apply lin_lim_m. now apply Rinv_0_lt_compat.
  - apply is_lim_const.
  - reflexivity.
  - reflexivity.
Qed.
Lemma normal_derive m s y : 0 < s -> is_derive (fun y => cdf ((y - m) / s)) y (normal m s y).
Proof.
  intros S. rewrite normal_phi by exact S. evar_last.
  - apply (is_derive_comp cdf (fun y => (y - m) / s)); [apply cdf_derive|]. auto_derive; [exact I|reflexivity].
  - unfold scal; simpl; unfold mult; simpl. unfold Rdiv. ring.
Qed.
Lemma normal_cont m s y : 0 < s -> continuous (normal m s) y.
Proof. intros S. apply cont_of_derive. unfold normal. auto_derive. exact I. Qed.

(** Integrals of derivatives. *)
Lemma gen_derive {Fa Fb : (R -> Prop) -> Prop} {FFa : Filter Fa} {FFb : Filter Fb} (F f : R -> R) la lb :
  (forall x, is_derive F x (f x)) -> (forall x, continuous f x) ->
  filterlim F Fa (locally la) -> filterlim F Fb (locally lb) -> is_RInt_gen f Fa Fb (lb - la).
Proof.
  intros D C A B. apply (is_RInt_gen_ext (Derive F)).
  - apply filter_forall. intros ab x _. apply is_derive_unique, D.
  - apply is_RInt_gen_Derive; [| |exact A|exact B]; apply filter_forall; intros ab x _.
    + eexists. apply D.
    + apply (continuous_ext f); [|apply C]. intros t. symmetry. apply is_derive_unique, D.
Qed.
Lemma lim_at_point (F : R -> R) c : filterlim F (at_point c) (locally (F c)).
Proof. intros P H. unfold filtermap, at_point. now apply locally_singleton in H. Qed.

Theorem probability_cdf m s c : 0 < s -> probability_le m s c (cdf ((c - m) / s)).
Proof.
  intros S. unfold probability_le. replace (cdf ((c - m) / s)) with (cdf ((c - m) / s) - 0) by ring.
  apply (gen_derive (Fa := Rbar_locally m_infty) (Fb := at_point c) (fun y => cdf ((y - m) / s))).
  - intros x. now apply normal_derive.
  - intros x. now apply normal_cont.
  - apply (is_lim_comp cdf (fun y => (y - m) / s) m_infty 0 m_infty); [apply cdf_lim_m|now apply std_lim|exists 0; discriminate].
  - exact (lim_at_point (fun y => cdf ((y - m) / s)) c).
Qed.

(** x * cdf x tends to 0 at minus infinity is not needed: the antiderivative below already has the limit 0. *)
Lemma ei_derive T m s y : 0 < s ->
  is_derive (fun y => (T - m) * cdf ((y - m) / s) + s * phi ((y - m) / s)) y ((T - y) * normal m s y).
Proof.
  intros S. evar_last.
  - apply (is_derive_plus (fun y => (T - m) * cdf ((y - m) / s)) (fun y => s * phi ((y - m) / s))).
    + apply (is_derive_scal (fun y => cdf ((y - m) / s)) y (T - m)). now apply normal_derive.
    + apply (is_derive_scal (fun y => phi ((y - m) / s)) y s).
      apply (is_derive_comp phi (fun y => (y - m) / s)); [apply phi_derive|]. auto_derive; [exact I|reflexivity].
  - rewrite normal_phi by exact S. unfold plus, scal; simpl; unfold mult; simpl. field. lra.
Qed.
Theorem expected_improvement T m s : 0 < s ->
  expectation m s (improvement T) (s * ((T - m) / s * cdf ((T - m) / s) + phi ((T - m) / s))).
Proof.
  intros S. unfold expectation.
  replace (s * ((T - m) / s * cdf ((T - m) / s) + phi ((T - m) / s)))
    with (plus ((T - m) * cdf ((T - m) / s) + s * phi ((T - m) / s) - 0) (0 - 0)) by (unfold plus; simpl; field; lra).
  apply (is_RInt_gen_Chasles (fun y => improvement T y * normal m s y) T).
  - apply (is_RInt_gen_ext (fun y => (T - y) * normal m s y)).
    + apply (Filter_prod _ _ _ (fun a => a < T) (fun b => b = T)); [exists T; auto|reflexivity|].
      intros a b A -> x H. cbn [fst snd] in H. rewrite Rmax_right, Rmin_left in H by lra. unfold improvement. rewrite Rmax_left by lra. reflexivity.
    + apply (gen_derive (Fa := Rbar_locally m_infty) (Fb := at_point T) (fun y => (T - m) * cdf ((y - m) / s) + s * phi ((y - m) / s))).
      * intros x. now apply ei_derive.
      * intros x. apply cont_of_derive. unfold normal. auto_derive. exact I.
      * assert (L : is_lim (fun y => (T - m) * cdf ((y - m) / s) + s * phi ((y - m) / s)) m_infty 0); [|exact L].
        evar_last.
        { apply (is_lim_plus (fun y => (T - m) * cdf ((y - m) / s)) (fun y => s * phi ((y - m) / s)) m_infty
                   (Rbar_mult (T - m) 0) (Rbar_mult s 0)).
          - apply is_lim_scal_l. apply (is_lim_comp cdf (fun y => (y - m) / s) m_infty 0 m_infty); [apply cdf_lim_m|now apply std_lim|exists 0; discriminate].
          - apply is_lim_scal_l. apply (is_lim_comp phi (fun y => (y - m) / s) m_infty 0 m_infty); [apply phi_lim_m|now apply std_lim|exists 0; discriminate].
          - reflexivity. }
        simpl. apply (f_equal Finite). ring.
      * exact (lim_at_point (fun y => (T - m) * cdf ((y - m) / s) + s * phi ((y - m) / s)) T).
  - apply (is_RInt_gen_ext (fun _ => 0)).
    + apply (Filter_prod _ _ _ (fun a => a = T) (fun b => T < b)); [reflexivity|exists T; auto|].
      intros a b -> B x H. cbn [fst snd] in H. rewrite Rmax_right, Rmin_left in H by lra. unfold improvement. rewrite Rmax_right by lra. symmetry. apply Rmult_0_l.
    + apply (gen_derive (Fa := at_point T) (Fb := Rbar_locally p_infty) (fun _ => 0)); [intros; auto_derive; [exact I|reflexivity]|intros; apply continuous_const|apply filterlim_const|apply filterlim_const].
Qed.
