(** Lemmas about the acquisition functions. *)
From Coq Require Import Reals Lra Psatz List Lia.
From Coquelicot Require Import Coquelicot.
From Verif.Model Require Import AcqR.
From Verif.Spec Require Import RSpec.
From Verif.Proof Require Import Gauss GaussP.
Import ListNotations.
Local Open Scope R_scope.

(** ---- points and coordinates *)
Lemma put_length x i t : (i < length x)%nat -> length (put x i t) = length x.
Proof. intros H. unfold put. rewrite app_length, firstn_length_le by lia. cbn [length]. rewrite skipn_length. lia. Qed.
Lemma put_same : forall x i, (i < length x)%nat -> put x i (coord x i) = x.
Proof.
  unfold put, coord. induction x as [|a x IH]; intros i H; cbn in H; [lia|]. destruct i as [|i]; cbn; [reflexivity|]. f_equal.
  apply IH. lia.
Qed.
Lemma put_coord_same : forall x i t, (i < length x)%nat -> coord (put x i t) i = t.
Proof. unfold put, coord. induction x as [|a x IH]; intros i t H; cbn in H; [lia|]. destruct i as [|i]; cbn; [reflexivity|]. apply IH. lia. Qed.
Lemma put_coord_other : forall x i j t, (i < length x)%nat -> i <> j -> coord (put x i t) j = coord x j.
Proof.
  unfold put, coord. induction x as [|a x IH]; intros i j t H N; cbn in H; [lia|]. destruct i as [|i], j as [|j]; cbn; try lia; try reflexivity.
  apply IH; lia.
Qed.
Lemma vzip_length f : forall v w, length (vzip f v w) = Nat.min (length v) (length w).
Proof. induction v as [|a v IH]; intros [|b w]; cbn; auto. Qed.
Lemma vscale_length c v : length (vscale c v) = length v. Proof. apply map_length. Qed.
Lemma vzip_coord f : forall v w i, (i < length v)%nat -> (i < length w)%nat -> coord (vzip f v w) i = f (coord v i) (coord w i).
Proof. unfold coord. induction v as [|a v IH]; intros [|b w] [|i] H1 H2; cbn in *; try lia; auto. apply IH; lia. Qed.
Lemma map_coord f v i : (i < length v)%nat -> coord (map f v) i = f (coord v i).
Proof. intros H. unfold coord. rewrite (nth_indep _ 0 (f 0)) by (rewrite map_length; exact H). apply map_nth. Qed.
Lemma vscale_coord c v i : coord (vscale c v) i = c * coord v i.
Proof.
  unfold coord, vscale. revert i. induction v as [|a v IH]; intros [|i]; cbn; try ring. apply IH.
Qed.

(** ---- derivatives: one-dimensional rules on plain reals *)
Lemma d_ext_loc (f g : R -> R) (x d : R) : locally x (fun t => f t = g t) -> is_derive f x d -> is_derive g x d.
Proof. intros. now apply (is_derive_ext_loc f g). Qed.
Lemma d_comp (f g : R -> R) (x df dg : R) : is_derive f (g x) df -> is_derive g x dg -> is_derive (fun t => f (g t)) x (df * dg).
Proof. intros F G. evar_last; [apply (is_derive_comp f g x df dg F G)|]. unfold scal; simpl; unfold mult; simpl. ring. Qed.
Lemma d_plus (f g : R -> R) (x df dg : R) : is_derive f x df -> is_derive g x dg -> is_derive (fun t => f t + g t) x (df + dg).
Proof. intros F G. exact (is_derive_plus f g x df dg F G). Qed.
Lemma d_minus (f g : R -> R) (x df dg : R) : is_derive f x df -> is_derive g x dg -> is_derive (fun t => f t - g t) x (df - dg).
Proof. intros F G. exact (is_derive_minus f g x df dg F G). Qed.
Lemma d_opp (f : R -> R) (x df : R) : is_derive f x df -> is_derive (fun t => - f t) x (- df).
Proof. intros F. exact (is_derive_opp f x df F). Qed.
Lemma d_mult (f g : R -> R) (x df dg : R) : is_derive f x df -> is_derive g x dg -> is_derive (fun t => f t * g t) x (df * g x + f x * dg).
Proof. intros F G. evar_last; [apply (is_derive_mult f g x df dg F G); intros; apply Rmult_comm|]. unfold plus, mult; simpl. reflexivity. Qed.
Lemma d_const (c x : R) : is_derive (fun _ : R => c) x 0.
Proof. auto_derive; [exact I|reflexivity]. Qed.
Lemma d_scal (c : R) (f : R -> R) (x df : R) : is_derive f x df -> is_derive (fun t => c * f t) x (c * df).
Proof. intros F. exact (is_derive_scal f x c df F). Qed.
Lemma d_inv (f : R -> R) (x df : R) : is_derive f x df -> f x <> 0 -> is_derive (fun t => / f t) x (- df / (f x * f x)).
Proof. intros F N. evar_last; [apply (is_derive_inv f x df F N)|]. unfold Rdiv. simpl. field. exact N. Qed.
Lemma d_div (f g : R -> R) (x df dg : R) : is_derive f x df -> is_derive g x dg -> g x <> 0 ->
  is_derive (fun t => f t / g t) x ((df * g x - f x * dg) / (g x * g x)).
Proof. intros F G N. evar_last; [apply (d_mult f (fun t => / g t) x df (- dg / (g x * g x)) F), (d_inv g x dg G N)|]. field. exact N. Qed.
Lemma d_id (x : R) : is_derive (fun t : R => t) x 1.
Proof. auto_derive; [exact I|reflexivity]. Qed.
Lemma d_exp x : is_derive exp x (exp x).
Proof. auto_derive; [exact I|ring]. Qed.
Lemma d_ln x : 0 < x -> is_derive ln x (/ x).
Proof. intros H. auto_derive; [exact H|field; lra]. Qed.
Lemma d_sqrt x : 0 < x -> is_derive sqrt x (/ (2 * sqrt x)).
Proof. intros H. auto_derive; [exact H|]. field. apply Rgt_not_eq. now apply sqrt_lt_R0. Qed.
Lemma d_eq (f : R -> R) (x d d' : R) : is_derive f x d -> d = d' -> is_derive f x d'.
Proof. now intros H <-. Qed.
(** A continuous function stays above a bound it exceeds. *)
Lemma above_near (f : R -> R) (x d c : R) : is_derive f x d -> c < f x -> locally x (fun t => c < f t).
Proof.
  intros D H. assert (C : continuous f x) by (apply cont_of_derive; eexists; exact D).
  apply (C (fun y => c < y)). apply (open_gt c). exact H.
Qed.
Lemma below_near (f : R -> R) (x d c : R) : is_derive f x d -> f x < c -> locally x (fun t => f t < c).
Proof.
  intros D H. assert (C : continuous f x) by (apply cont_of_derive; eexists; exact D).
  apply (C (fun y => y < c)). apply (open_lt c). exact H.
Qed.

(** ---- constants *)
Lemma e10_pos : 0 < e10. Proof. apply Rinv_0_lt_compat. apply pow_lt. lra. Qed.
Lemma e16_pos : 0 < e16. Proof. apply Rinv_0_lt_compat. apply pow_lt. lra. Qed.
Lemma e50_pos : 0 < e50. Proof. apply Rinv_0_lt_compat. apply pow_lt. lra. Qed.
Lemma clip_max v : clip v = Rmax v e10.
Proof. unfold clip. destruct (Rlt_dec v e10); [rewrite Rmax_right|rewrite Rmax_left]; lra. Qed.
Lemma clip_ge v : e10 <= clip v. Proof. rewrite clip_max. apply Rmax_r. Qed.
Lemma clip_pos v : 0 < clip v. Proof. pose proof (clip_ge v). pose proof e10_pos. lra. Qed.
Lemma clip_id v : e10 <= v -> clip v = v. Proof. intros H. rewrite clip_max. now apply Rmax_left. Qed.

(** ---- get_quantiles *)
Lemma quantiles_spec par fmin m s :
  let u := (fmin - m - par) / clip s in get_quantiles par fmin m s = (phi u, cdf u, u, clip s).
Proof. reflexivity. Qed.

(** ---- EI as a function of target, mean and deviation *)
Definition ei (T m s : R) : R := s * ((T - m) / s * cdf ((T - m) / s) + phi ((T - m) / s)).
Lemma EI_value j M x m s : predict M x = (m, s) -> compute_acq (EI j M) x = ei (get_fmin M - j) m (clip s).
Proof.
  intros P. cbn [compute_acq EI]. rewrite P, quantiles_spec. cbv zeta. unfold ei.
  replace (get_fmin M - m - j) with (get_fmin M - j - m) by ring. reflexivity.
Qed.
Lemma ei_lin T m s : 0 < s -> ei T m s = (T - m) * cdf ((T - m) / s) + s * phi ((T - m) / s).
Proof. intros S. unfold ei. field. lra. Qed.
Lemma h_pos u : 0 < u * cdf u + phi u.
Proof.
  destruct (Rle_lt_dec 0 u) as [H|H].
  - pose proof (phi_pos u). pose proof (cdf_pos u). assert (0 <= u * cdf u) by (apply Rmult_le_pos; lra). lra.
  - set (q := fun u => cdf u + phi u / u).
    assert (Dq : forall v, v < 0 -> is_derive q v (- phi v / (v * v))).
    { intros v V. unfold q. eapply d_eq; [apply d_plus; [apply cdf_derive|apply d_div; [apply phi_derive|apply d_id|lra]]|].
      cbv beta. field. lra. }
    assert (Mq : forall a b, a < b -> b < 0 -> q b < q a).
    { intros a b A B. destruct (MVT_gen q a b (fun v => - phi v / (v * v))) as (c & C & E).
      - intros v V. rewrite Rmax_right in V by lra. apply Dq. lra.
      - intros v V. rewrite Rmax_right in V by lra. apply continuity_pt_filterlim. apply cont_of_derive. eexists. apply Dq. lra.
      - rewrite Rmin_left, Rmax_right in C by lra. assert (0 < phi c / (c * c)) by (apply Rdiv_lt_0_compat; [apply phi_pos|nra]).
        assert (0 < phi c / (c * c) * (b - a)) by (apply Rmult_lt_0_compat; lra).
        replace (- phi c / (c * c)) with (- (phi c / (c * c))) in E by (unfold Rdiv; ring). lra. }
    assert (Lq : is_lim q m_infty 0).
    { unfold q. evar_last.
      - apply (is_lim_plus cdf (fun u => phi u / u) m_infty 0 0); [apply cdf_lim_m| |reflexivity].
        apply (is_lim_le_le_loc (fun v => - phi v) (fun _ => 0)); [exists (-1)| |apply is_lim_const].
        + intros v V. pose proof (phi_pos v). assert (E : phi v / v = - (phi v * / (- v))) by (field; lra). rewrite E.
          assert (0 < / (- v)) by (apply Rinv_0_lt_compat; lra).
          assert (/ (- v) < 1) by (rewrite <- Rinv_1; apply Rinv_lt_contravar; lra). split; [|assert (0 < phi v * / - v) by (apply Rmult_lt_0_compat; lra); lra].
          apply Ropp_le_contravar. rewrite <- (Rmult_1_r (phi v)) at 2. apply Rmult_le_compat_l; lra.
        + evar_last; [apply (is_lim_opp phi m_infty 0), phi_lim_m|]. simpl. apply (f_equal Finite). ring.
      - simpl. apply (f_equal Finite). ring. }
    assert (Q : q u < 0).
    { apply Rlt_le_trans with (q (u - 1)); [apply Mq; lra|].
      apply (is_lim_le_loc (fun _ => q (u - 1)) q m_infty (q (u - 1)) 0); [exists (u - 1)|apply is_lim_const|exact Lq].
      intros v V. left. apply Mq; lra. }
    unfold q in Q. replace (u * cdf u + phi u) with (- u * - (cdf u + phi u / u)) by (field; lra).
    apply Rmult_lt_0_compat; lra.
Qed.
Lemma ei_pos T m s : 0 < s -> 0 < ei T m s.
Proof. intros S. apply Rmult_lt_0_compat; [exact S|apply h_pos]. Qed.
Lemma h_incr a b : a < b -> a * cdf a + phi a < b * cdf b + phi b.
Proof.
  apply (incr_of_derive (fun u => u * cdf u + phi u) cdf); [|apply cdf_pos]. intros x.
  eapply d_eq; [apply d_plus; [apply d_mult; [apply d_id|apply cdf_derive]|apply phi_derive]|]. cbv beta. ring.
Qed.
Lemma ei_decr_m T m m' s : 0 < s -> m < m' -> ei T m' s < ei T m s.
Proof.
  intros S L. unfold ei. apply Rmult_lt_compat_l; [exact S|]. apply h_incr. unfold Rdiv. apply Rmult_lt_compat_r; [now apply Rinv_0_lt_compat|lra].
Qed.
Lemma ei_derive_s T m s : 0 < s -> is_derive (fun s => ei T m s) s (phi ((T - m) / s)).
Proof.
  intros S. apply (d_ext_loc (fun s => (T - m) * cdf ((T - m) / s) + s * phi ((T - m) / s))).
  - apply (filter_imp (fun t => 0 < t)); [intros t H; symmetry; now apply ei_lin|]. apply (above_near (fun t => t) s 1); [apply d_id|exact S].
  - assert (U : is_derive (fun s => (T - m) / s) s (- (T - m) / (s * s))).
    { eapply d_eq; [apply d_div; [apply d_const|apply d_id|lra]|]. cbv beta. field. lra. }
    eapply d_eq; [apply d_plus; [apply d_scal, d_comp; [apply cdf_derive|exact U]|apply d_mult; [apply d_id|apply d_comp; [apply phi_derive|exact U]]]|].
    cbv beta. field. lra.
Qed.
Lemma ei_incr_s T m s s' : 0 < s -> s < s' -> ei T m s < ei T m s'.
Proof.
  intros S L. destruct (MVT_gen (ei T m) s s' (fun s => phi ((T - m) / s))) as (c & C & E).
  - intros v V. rewrite Rmin_left in V by lra. apply ei_derive_s. lra.
  - intros v V. rewrite Rmin_left in V by lra. apply continuity_pt_filterlim. apply cont_of_derive. eexists. apply ei_derive_s. lra.
  - pose proof (phi_pos ((T - m) / c)). assert (0 < phi ((T - m) / c) * (s' - s)) by (apply Rmult_lt_0_compat; lra). lra.
Qed.

(** ---- C46 *)
Theorem EI_expectation j M x m s : predict M x = (m, s) ->
  expectation m (Rmax s (/ 10 ^ 10)) (improvement (get_fmin M - j)) (compute_acq (EI j M) x).
Proof.
  intros P. rewrite (EI_value _ _ _ _ _ P). rewrite clip_max. apply expected_improvement. fold e10. rewrite <- (clip_max s). apply clip_pos.
Qed.
Theorem EI_positive j M x : 0 < compute_acq (EI j M) x.
Proof. destruct (predict M x) as [m s] eqn:P. rewrite (EI_value _ _ _ _ _ P). apply ei_pos, clip_pos. Qed.
Theorem EI_decreasing_mean j M x M' x' m m' s : get_fmin M' = get_fmin M -> predict M x = (m, s) -> predict M' x' = (m', s) -> m < m' ->
  compute_acq (EI j M') x' < compute_acq (EI j M) x.
Proof. intros F P P' L. rewrite (EI_value _ _ _ _ _ P), (EI_value _ _ _ _ _ P'), F. apply ei_decr_m; [apply clip_pos|exact L]. Qed.
Theorem EI_increasing_deviation j M x M' x' m s s' : get_fmin M' = get_fmin M -> predict M x = (m, s) -> predict M' x' = (m, s') ->
  / 10 ^ 10 <= s -> s < s' -> compute_acq (EI j M) x < compute_acq (EI j M') x'.
Proof.
  intros F P P' G L. rewrite (EI_value _ _ _ _ _ P), (EI_value _ _ _ _ _ P'), F. pose proof e10_pos. rewrite !clip_id; unfold e10 in *; try lra.
  apply ei_incr_s; lra.
Qed.

(** ---- C48 *)
Lemma MPI_value j M x m s : predict M x = (m, s) -> compute_acq (MPI j M) x = cdf ((get_fmin M - j - m) / clip s).
Proof.
  intros P. cbn [compute_acq MPI]. rewrite P, quantiles_spec. cbv zeta. replace (get_fmin M - m - j) with (get_fmin M - j - m) by ring. reflexivity.
Qed.
Theorem MPI_probability j M x m s : predict M x = (m, s) -> probability_le m (Rmax s (/ 10 ^ 10)) (get_fmin M - j) (compute_acq (MPI j M) x).
Proof. intros P. rewrite (MPI_value _ _ _ _ _ P), clip_max. apply probability_cdf. fold e10. rewrite <- (clip_max s). apply clip_pos. Qed.
Theorem MPI_range j M x : 0 < compute_acq (MPI j M) x < 1.
Proof. destruct (predict M x) as [m s] eqn:P. rewrite (MPI_value _ _ _ _ _ P). split; [apply cdf_pos|apply cdf_lt_1]. Qed.
Theorem MPI_decreasing_mean j M x M' x' m m' s : get_fmin M' = get_fmin M -> predict M x = (m, s) -> predict M' x' = (m', s) -> m < m' ->
  compute_acq (MPI j M') x' < compute_acq (MPI j M) x.
Proof.
  intros F P P' L. rewrite (MPI_value _ _ _ _ _ P), (MPI_value _ _ _ _ _ P'), F. apply cdf_incr.
  unfold Rdiv. apply Rmult_lt_compat_r; [apply Rinv_0_lt_compat, clip_pos|lra].
Qed.
Theorem MPI_deviation j M x M' x' m s s' : get_fmin M' = get_fmin M -> predict M x = (m, s) -> predict M' x' = (m, s') ->
  / 10 ^ 10 <= s -> s < s' ->
  (m < get_fmin M - j -> compute_acq (MPI j M') x' < compute_acq (MPI j M) x) /\
  (get_fmin M - j < m -> compute_acq (MPI j M) x < compute_acq (MPI j M') x') /\
  (m = get_fmin M - j -> compute_acq (MPI j M) x = compute_acq (MPI j M') x').
Proof.
  intros F P P' G L. rewrite (MPI_value _ _ _ _ _ P), (MPI_value _ _ _ _ _ P'), F. pose proof e10_pos. rewrite !clip_id by (unfold e10 in *; lra).
  unfold e10 in *. assert (/ s' < / s) by (apply Rinv_lt_contravar; [apply Rmult_lt_0_compat|]; lra).
  repeat split; intros K.
  - apply cdf_incr. unfold Rdiv. apply Rmult_lt_compat_l; lra.
  - apply cdf_incr. unfold Rdiv. nra.
  - subst m. f_equal. unfold Rdiv. ring.
Qed.
