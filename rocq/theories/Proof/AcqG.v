(** Gradients: acquisitions, cost weighting, deviations, integrated acquisitions. *)
From Coq Require Import Reals Lra Psatz List Lia Bool.
From Coquelicot Require Import Coquelicot.
From Verif.Model Require Import AcqR.
From Verif.Spec Require Import RSpec AcqSpec.
From Verif.Proof Require Import Gauss GaussP AcqP.
Import ListNotations.
Local Open Scope R_scope.

Definition mean_of (M : model) (y : pt) : R := fst (predict M y).
Definition dev_of (M : model) (y : pt) : R := snd (predict M y).

Section Coordinates.
Variables (M : model) (x dm ds : pt) (j : R).
Hypotheses (Gm : gradient (mean_of M) x dm) (Gs : gradient (dev_of M) x ds) (S : e10 < dev_of M x).

Lemma u_partial i : (i < length x)%nat ->
  is_derive (fun t => (get_fmin M - j - mean_of M (put x i t)) / dev_of M (put x i t)) (coord x i)
    (- (coord dm i + (get_fmin M - j - mean_of M x) / dev_of M x * coord ds i) / dev_of M x).
Proof.
  intros H. destruct Gm as [_ Dm], Gs as [_ Ds]. pose proof e10_pos.
  eapply d_eq; [apply d_div; [apply d_minus; [apply d_const|exact (Dm i H)]|exact (Ds i H)|rewrite put_same by exact H; lra]|].
  cbv beta. rewrite put_same by exact H. field. lra.
Qed.
Lemma dev_above i : (i < length x)%nat -> locally (coord x i) (fun t => e10 < dev_of M (put x i t)).
Proof. intros H. apply (above_near (fun t => dev_of M (put x i t)) _ _ _ (proj2 Gs i H)). now rewrite put_same. Qed.

Lemma EI_partial i : (i < length x)%nat ->
  partial (compute_acq (EI j M)) x i
    (coord ds i * phi ((get_fmin M - j - mean_of M x) / dev_of M x) - cdf ((get_fmin M - j - mean_of M x) / dev_of M x) * coord dm i).
Proof.
  intros H. unfold partial. set (T := get_fmin M - j).
  apply (d_ext_loc (fun t => (T - mean_of M (put x i t)) * cdf ((T - mean_of M (put x i t)) / dev_of M (put x i t))
                             + dev_of M (put x i t) * phi ((T - mean_of M (put x i t)) / dev_of M (put x i t)))).
  - apply (filter_imp (fun t => e10 < dev_of M (put x i t))); [|now apply dev_above]. intros t L.
    pose proof e10_pos. rewrite (EI_value j M _ (mean_of M (put x i t)) (dev_of M (put x i t))) by apply surjective_pairing.
    rewrite clip_id by lra. symmetry. apply ei_lin. lra.
  - pose proof (u_partial i H) as U. destruct Gm as [_ Dm], Gs as [_ Ds]. specialize (Dm i H). specialize (Ds i H).
    eapply d_eq; [apply d_plus; [apply d_mult; [apply d_minus; [apply d_const|exact Dm]|apply d_comp; [apply cdf_derive|exact U]]|
                                 apply d_mult; [exact Ds|apply d_comp; [apply phi_derive|exact U]]]|].
    cbv beta. rewrite put_same by exact H. fold T. pose proof e10_pos. field. lra.
Qed.
Lemma MPI_partial i : (i < length x)%nat ->
  partial (compute_acq (MPI j M)) x i
    (- (phi ((get_fmin M - j - mean_of M x) / dev_of M x) / dev_of M x) * (coord dm i + (get_fmin M - j - mean_of M x) / dev_of M x * coord ds i)).
Proof.
  intros H. unfold partial. set (T := get_fmin M - j).
  apply (d_ext_loc (fun t => cdf ((T - mean_of M (put x i t)) / dev_of M (put x i t)))).
  - apply (filter_imp (fun t => e10 < dev_of M (put x i t))); [|now apply dev_above]. intros t L.
    rewrite (MPI_value j M _ (mean_of M (put x i t)) (dev_of M (put x i t))) by apply surjective_pairing. now rewrite clip_id by lra.
  - eapply d_eq; [apply d_comp; [apply cdf_derive|apply (u_partial i H)]|]. cbv beta. rewrite put_same by exact H. fold T.
    pose proof e10_pos. field. lra.
Qed.
Lemma LCB_partial w i : (i < length x)%nat -> partial (compute_acq (LCB w M)) x i (- coord dm i + w * coord ds i).
Proof.
  intros H. unfold partial. destruct Gm as [_ Dm], Gs as [_ Ds]. specialize (Dm i H). specialize (Ds i H).
  apply (is_derive_ext (fun t => - mean_of M (put x i t) + w * dev_of M (put x i t))).
  - intros t. cbn [compute_acq LCB]. unfold mean_of, dev_of. destruct (predict M (put x i t)). reflexivity.
  - apply d_plus; [now apply d_opp|now apply d_scal].
Qed.
End Coordinates.

(** ---- C47 *)
(** What a model with gradients owes its user at [x]: predict_withGradients agrees with predict and its last two components
    are the gradients of the mean and of the deviation. *)
Theorem EI_gradient j M x : honest M x -> / 10 ^ 10 < snd (predict M x) ->
  fst (compute_acq_withGradients (EI j M) x) = compute_acq (EI j M) x /\
  gradient (compute_acq (EI j M)) x (snd (compute_acq_withGradients (EI j M) x)).
Proof.
  intros (dm & ds & P & Gm & Gs) L. fold e10 in L. cbn [compute_acq_withGradients EI]. rewrite P, quantiles_spec. cbv zeta.
  split; [cbn [fst compute_acq EI]; destruct (predict M x); reflexivity|].
  cbn [snd]. rewrite clip_id by lra. change (snd (predict M x)) with (dev_of M x) in *. change (fst (predict M x)) with (mean_of M x).
  destruct Gm as [Lm Dm], Gs as [Ls Ds].
  split; [unfold vsub; rewrite vzip_length, !vscale_length; unfold RSpec.pt, AcqR.pt in *; lia|].
  intros i H. unfold vsub. rewrite vzip_coord by (rewrite vscale_length; unfold RSpec.pt, AcqR.pt in *; lia). rewrite !vscale_coord.
  eapply d_eq; [apply (EI_partial M x dm ds j (conj Lm Dm) (conj Ls Ds) L i H)|].
  replace (get_fmin M - mean_of M x - j) with (get_fmin M - j - mean_of M x) by ring. ring.
Qed.
Theorem MPI_gradient j M x : honest M x -> / 10 ^ 10 < snd (predict M x) ->
  fst (compute_acq_withGradients (MPI j M) x) = compute_acq (MPI j M) x /\
  gradient (compute_acq (MPI j M)) x (snd (compute_acq_withGradients (MPI j M) x)).
Proof.
  intros (dm & ds & P & Gm & Gs) L. fold e10 in L. cbn [compute_acq_withGradients MPI]. rewrite P, quantiles_spec. cbv zeta.
  split; [cbn [fst compute_acq MPI]; destruct (predict M x); reflexivity|].
  cbn [snd]. rewrite clip_id by lra. change (snd (predict M x)) with (dev_of M x) in *. change (fst (predict M x)) with (mean_of M x).
  destruct Gm as [Lm Dm], Gs as [Ls Ds].
  split; [unfold vadd; rewrite !vscale_length, vzip_length, !vscale_length; unfold RSpec.pt, AcqR.pt in *; lia|].
  intros i H. rewrite vscale_coord. unfold vadd. rewrite vzip_coord by (rewrite ?vscale_length; unfold RSpec.pt, AcqR.pt in *; lia). rewrite vscale_coord.
  eapply d_eq; [apply (MPI_partial M x dm ds j (conj Lm Dm) (conj Ls Ds) L i H)|].
  replace (get_fmin M - mean_of M x - j) with (get_fmin M - j - mean_of M x) by ring. ring.
Qed.
Theorem LCB_gradient w M x : honest M x ->
  fst (compute_acq_withGradients (LCB w M) x) = compute_acq (LCB w M) x /\
  gradient (compute_acq (LCB w M)) x (snd (compute_acq_withGradients (LCB w M) x)).
Proof.
  intros (dm & ds & P & Gm & Gs). cbn [compute_acq_withGradients LCB]. rewrite P.
  split; [cbn [fst compute_acq LCB]; destruct (predict M x); reflexivity|]. cbn [snd].
  destruct Gm as [Lm Dm], Gs as [Ls Ds].
  split; [unfold vadd; rewrite vzip_length, !vscale_length; unfold RSpec.pt, AcqR.pt in *; lia|].
  intros i H. unfold vadd. rewrite vzip_coord by (rewrite vscale_length; unfold RSpec.pt, AcqR.pt in *; lia). rewrite !vscale_coord.
  eapply d_eq; [apply (LCB_partial M x dm ds (conj Lm Dm) (conj Ls Ds) w i H)|]. ring.
Qed.

(** ---- C55 *)
Lemma sqrt_e10 : sqrt e10 = / 10 ^ 5.
Proof.
  unfold e10. replace (/ 10 ^ 10) with (/ 10 ^ 5 * / 10 ^ 5) by (field; lra). apply sqrt_square. left. apply Rinv_0_lt_compat, pow_lt. lra.
Qed.
Theorem deviation_floor g x : / 10 ^ 5 <= snd (gp_predict g x) /\
  gp_predict g x = (let '(m, s, _, _) := gp_predict_withGradients g x in (m, s)).
Proof.
  split; [|reflexivity]. cbn [gp_predict snd]. rewrite <- sqrt_e10. apply sqrt_le_1_alt, clip_ge.
Qed.
Theorem deviation_exact g x : / 10 ^ 10 <= g_var g x -> snd (gp_predict g x) = sqrt (g_var g x) /\ snd (gp_predict g x) * snd (gp_predict g x) = g_var g x.
Proof.
  intros H. fold e10 in H. cbn [gp_predict snd]. rewrite clip_id by exact H. split; [reflexivity|]. apply sqrt_sqrt. pose proof e10_pos. lra.
Qed.
Theorem GP_honest g x : gradient (g_mean g) x (g_dmean g x) -> gradient (g_var g) x (g_dvar g x) -> / 10 ^ 10 < g_var g x ->
  honest (GPModel g) x /\ / 10 ^ 10 < snd (predict (GPModel g) x).
Proof.
  intros Gm [Lv Dv] H. fold e10 in *. pose proof e10_pos. split.
  - exists (g_dmean g x), (map (fun d => d / (2 * sqrt (clip (g_var g x)))) (g_dvar g x)). split; [reflexivity|]. split; [exact Gm|].
    split; [rewrite map_length; exact Lv|]. intros i I. rewrite map_coord by (unfold RSpec.pt, AcqR.pt in *; lia). rewrite clip_id by lra. unfold partial.
    apply (d_ext_loc (fun t => sqrt (g_var g (put x i t)))).
    + apply (filter_imp (fun t => e10 < g_var g (put x i t))).
      * intros t L. cbn [predict GPModel gp_predict snd]. now rewrite clip_id by lra.
      * apply (above_near (fun t => g_var g (put x i t)) _ _ _ (Dv i I)). now rewrite put_same.
    + eapply d_eq; [apply (d_comp sqrt (fun t => g_var g (put x i t))); [apply d_sqrt; rewrite put_same by exact I; lra|exact (Dv i I)]|].
      cbv beta. rewrite put_same by exact I. field. apply Rgt_not_eq, sqrt_lt_R0. lra.
  - apply Rlt_le_trans with (/ 10 ^ 5).
    + unfold e10. apply Rinv_lt_contravar; [apply Rmult_lt_0_compat; apply pow_lt; lra|]. apply Rlt_pow; [lra|lia].
    + apply (deviation_floor g x).
Qed.

(** ---- C50 *)
Theorem weighted_value A c ok x : fst (compute_acq_withGradients A x) = compute_acq A x ->
  fst (acquisition_function_withGradients A c ok x) = acquisition_function A c ok x /\
  (ok x = true -> acquisition_function A c ok x = - (compute_acq A x / fst (c x))) /\
  (ok x = false -> acquisition_function A c ok x = 0 /\ forall i, coord (snd (acquisition_function_withGradients A c ok x)) i = 0).
Proof.
  intros E. unfold acquisition_function, acquisition_function_withGradients.
  destruct (compute_acq_withGradients A x) as [f df]. destruct (c x) as [cx dc]. cbn [fst snd] in *. subst f.
  split; [unfold Rdiv; ring|]. split; intros ->; cbn [b2r].
  - unfold Rdiv. ring.
  - split; [unfold Rdiv; ring|]. intros i. rewrite map_map. unfold coord. revert i.
    induction (vsub (vscale cx df) (vscale (compute_acq A x) dc)) as [|a l IH]; intros [|i]; cbn [map nth]; try reflexivity; [ring|apply IH].
Qed.
Lemma af_ok A c ok y : ok y = true -> acquisition_function A c ok y = - (compute_acq A y / fst (c y)).
Proof. intros K. unfold acquisition_function. rewrite K. cbn [b2r]. unfold Rdiv. ring. Qed.
Lemma af_bad A c ok y : ok y = false -> acquisition_function A c ok y = 0.
Proof. intros K. unfold acquisition_function. rewrite K. cbn [b2r]. unfold Rdiv. ring. Qed.
Theorem weighted_gradient A c ok x :
  fst (compute_acq_withGradients A x) = compute_acq A x ->
  gradient (compute_acq A) x (snd (compute_acq_withGradients A x)) ->
  gradient (fun y => fst (c y)) x (snd (c x)) -> fst (c x) <> 0 ->
  near (fun y => ok y = true) x ->
  gradient (acquisition_function A c ok) x (snd (acquisition_function_withGradients A c ok x)).
Proof.
  intros E [La Da] [Lc Dc] NZ NR. unfold acquisition_function_withGradients.
  destruct (compute_acq_withGradients A x) as [f df]. destruct (c x) as [cx dc] eqn:CX. cbn [fst snd] in *. subst f.
  split.
  { rewrite !map_length. unfold vsub. rewrite vzip_length, !vscale_length. unfold RSpec.pt, AcqR.pt in *. lia. }
  intros i I. pose proof (NR i I) as N.
  assert (OK : ok x = true). { apply locally_singleton in N. now rewrite put_same in N. }
  rewrite OK. cbn [b2r]. rewrite !map_coord by (rewrite ?map_length; unfold vsub; rewrite vzip_length, !vscale_length; unfold RSpec.pt, AcqR.pt in *; lia).
  unfold vsub. rewrite vzip_coord by (rewrite vscale_length; unfold RSpec.pt, AcqR.pt in *; lia). rewrite !vscale_coord. unfold partial.
  apply (d_ext_loc (fun t => - (compute_acq A (put x i t) / fst (c (put x i t))))).
  - apply (filter_imp (fun t => ok (put x i t) = true)); [|exact N]. intros t K. symmetry. now apply af_ok.
  - eapply d_eq; [apply d_opp, d_div; [exact (Da i I)|exact (Dc i I)|rewrite put_same by exact I; rewrite CX; exact NZ]|].
    cbv beta. rewrite put_same by exact I. rewrite CX. cbn [fst]. field. exact NZ.
Qed.
(** At a point with only infeasible neighbours the returned gradient is right too. *)
Theorem weighted_gradient_infeasible A c ok x :
  length (snd (compute_acq_withGradients A x)) = length x -> length (snd (c x)) = length x -> ok x = false ->
  near (fun y => ok y = false) x -> gradient (acquisition_function A c ok) x (snd (acquisition_function_withGradients A c ok x)).
Proof.
  intros La Lc OK NR. unfold acquisition_function_withGradients.
  destruct (compute_acq_withGradients A x) as [f df]. destruct (c x) as [cx dc] eqn:CX. cbn [fst snd] in *.
  split. { rewrite !map_length. unfold vsub. rewrite vzip_length, !vscale_length. unfold RSpec.pt, AcqR.pt in *. lia. }
  intros i I. rewrite OK. cbn [b2r]. rewrite !map_coord by (rewrite ?map_length; unfold vsub; rewrite vzip_length, !vscale_length; unfold RSpec.pt, AcqR.pt in *; lia).
  rewrite Rmult_0_r. unfold partial. apply (d_ext_loc (fun _ => 0)); [|apply d_const].
  apply (filter_imp (fun t => ok (put x i t) = false)); [|exact (NR i I)]. intros t K. symmetry. now apply af_bad.
Qed.

(** ---- C41: the predicted cost *)
Theorem cost_positive M x : 0 < fst (cost_gp_withGradients M x) /\ cost_gp M x = fst (cost_gp_withGradients M x).
Proof. unfold cost_gp, cost_gp_withGradients. destruct (predict_withGradients M x) as [[[m s] dm] ds]. split; [apply exp_pos|reflexivity]. Qed.
Theorem cost_gradient g x : gradient (g_mean g) x (g_dmean g x) ->
  gradient (fun y => fst (cost_gp_withGradients (GPModel g) y)) x (snd (cost_gp_withGradients (GPModel g) x)).
Proof.
  intros [L D]. cbn [cost_gp_withGradients predict_withGradients GPModel gp_predict_withGradients fst snd].
  split; [rewrite vscale_length; exact L|]. intros i I. rewrite vscale_coord. unfold partial.
  eapply d_eq; [apply (d_comp exp (fun t => g_mean g (put x i t))); [apply d_exp|exact (D i I)]|]. cbv beta. now rewrite put_same.
Qed.
Theorem constant_cost_gradient x : fst (constant_cost x) = 1 /\ gradient (fun y => fst (constant_cost y)) x (snd (constant_cost x)).
Proof.
  split; [reflexivity|]. cbn [constant_cost fst snd]. split; [apply map_length|]. intros i I. rewrite map_coord by exact I. exact (d_const 1 (coord x i)).
Qed.
