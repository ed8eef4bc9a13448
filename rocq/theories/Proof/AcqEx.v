(** Consequences and concrete instances of the acquisition theorems. *)
From Coq Require Import Reals Lra Psatz List Lia Bool.
From Coquelicot Require Import Coquelicot.
From Verif.Model Require Import AcqR.
From Verif.Spec Require Import RSpec AcqSpec.
From Verif.Proof Require Import Gauss GaussP AcqP AcqG AcqM LPP.
Import ListNotations.
Local Open Scope R_scope.

Lemma partial_unique f x i d d' : partial f x i d -> partial f x i d' -> d = d'.
Proof. unfold partial. intros A B. apply is_derive_unique in A. apply is_derive_unique in B. congruence. Qed.

(** The EI_MCMC gradient is right exactly where the average MPI has gradient 0 (or the jitter is 0). *)
Theorem EI_MCMC_gradient_iff j gs x : gs <> [] -> (forall g, In g gs -> smooth x g) ->
  exists v w, EI_MCMC_withGradients j (GPModel_MCMC gs) x = Some (EI_MCMC j (GPModel_MCMC gs) x, v) /\
    gradient (MPI_MCMC j (GPModel_MCMC gs)) x w /\
    (gradient (EI_MCMC j (GPModel_MCMC gs)) x v <-> forall i, (i < length x)%nat -> j * coord w i = 0).
Proof.
  intros N H. destruct (EI_MCMC_gradient j gs x N H) as (v & V & G & D). destruct (MPI_MCMC_gradient j gs x N H) as (w & W & GW).
  rewrite W in D. exists v, w. split; [exact V|]. split; [exact GW|]. split.
  - intros [_ GV] i I. specialize (D i I _ (GV i I)). lra.
  - intros Z. split; [apply G|]. intros i I. destruct G as [_ GD], GW as [_ GWD].
    unfold partial. eapply d_eq.
    + apply (is_derive_ext (fun t => average (map (fun g => compute_acq (EI j (GPModel g)) (put x i t)) gs) + 2 * j * MPI_MCMC j (GPModel_MCMC gs) (put x i t))).
      * intros t. symmetry. rewrite MPI_MCMC_average. apply EI_MCMC_value.
      * apply d_plus; [exact (GD i I)|]. apply d_scal. exact (GWD i I).
    + specialize (Z i I). nra.
Qed.

(** At a feasible point with infeasible points arbitrarily close along a coordinate there is no derivative to return. *)
Theorem no_derivative_at_boundary A c ok x i : (i < length x)%nat -> ok x = true -> compute_acq A x <> 0 -> fst (c x) <> 0 ->
  (forall eps, 0 < eps -> exists t, Rabs (t - coord x i) < eps /\ ok (put x i t) = false) ->
  forall d, ~ partial (acquisition_function A c ok) x i d.
Proof.
  intros I OK NZ CZ B d D. unfold partial in D.
  set (v := acquisition_function A c ok x).
  assert (V : v <> 0).
  { unfold v. rewrite af_ok by exact OK. intros E. assert (Q : compute_acq A x / fst (c x) = 0) by lra.
    unfold Rdiv in Q. apply Rmult_integral in Q. destruct Q as [Q|Q]; [contradiction|]. now apply Rinv_neq_0_compat in Q. }
  assert (X : exists e : posreal, forall t, Rabs (t - coord x i) < e -> acquisition_function A c ok (put x i t) <> 0).
  { destruct (Rtotal_order v 0) as [L|[E|L]]; [|contradiction|].
    - destruct (below_near _ _ _ 0 D) as [e E]; [rewrite put_same by exact I; exact L|]. exists e. intros t T. specialize (E t T). lra.
    - destruct (above_near _ _ _ 0 D) as [e E]; [rewrite put_same by exact I; exact L|]. exists e. intros t T. specialize (E t T). lra. }
  destruct X as [e X]. destruct (B e (cond_pos e)) as (t & T & F). apply (X t T). now apply af_bad.
Qed.

(** ---- The concrete model [line]. *)
Lemma line_smooth a : smooth [a] line.
Proof.
  split; [|split].
  - split; [reflexivity|]. intros [|i] I; [|cbn in I; lia]. unfold partial. cbn. apply d_id.
  - split; [reflexivity|]. intros [|i] I; [|cbn in I; lia]. unfold partial. cbn. apply d_const.
  - cbn [g_var line]. assert (1 < 10 ^ 10) by (apply Rlt_pow_R1; [lra|lia]). rewrite <- Rinv_1. apply Rinv_lt_contravar; lra.
Qed.
Lemma line_honest a : honest (GPModel line) [a] /\ / 10 ^ 10 < snd (predict (GPModel line) [a]).
Proof. destruct (line_smooth a) as (A & B & C). now apply GP_honest. Qed.
Lemma line_mpi_gradient j a v : gradient (MPI_MCMC j (GPModel_MCMC [line])) [a] v -> coord v 0 < 0.
Proof.
  intros [_ G]. specialize (G 0%nat ltac:(cbn; lia)). destruct (line_honest a) as [H L].
  destruct (MPI_gradient j (GPModel line) [a] H L) as [_ [_ D]]. specialize (D 0%nat ltac:(cbn; lia)).
  assert (E : coord v 0 = coord (snd (compute_acq_withGradients (MPI j (GPModel line)) [a])) 0).
  { apply (partial_unique (MPI_MCMC j (GPModel_MCMC [line])) [a] 0); [exact G|]. unfold partial in *.
    eapply is_derive_ext; [|exact D]. intros t. cbv beta. rewrite MPI_MCMC_average. unfold average, sumR. cbn [map fold_right length INR]. unfold Rdiv. rewrite Rinv_1, Rmult_1_r, Rplus_0_r. reflexivity. }
  rewrite E. cbn [compute_acq_withGradients MPI]. cbn [predict_withGradients GPModel gp_predict_withGradients line g_var g_mean g_dmean g_dvar].
  rewrite quantiles_spec. cbv zeta. cbn [snd]. rewrite vscale_coord. unfold vadd. cbn [vzip vscale map coord nth].
  pose proof (clip_pos (sqrt (clip 1))) as CP. set (s := clip (sqrt (clip 1))) in *. set (u := (get_fmin (GPModel line) - a - j) / s).
  replace (0 / (2 * sqrt (clip 1))) with 0 by (unfold Rdiv; ring).
  assert (0 < phi u / s) by (apply Rdiv_lt_0_compat; [apply phi_pos|exact CP]). nra.
Qed.
Theorem EI_MCMC_gradient_wrong j a : j <> 0 ->
  exists v, EI_MCMC_withGradients j (GPModel_MCMC [line]) [a] = Some (EI_MCMC j (GPModel_MCMC [line]) [a], v) /\
            ~ gradient (EI_MCMC j (GPModel_MCMC [line])) [a] v.
Proof.
  intros J. destruct (EI_MCMC_gradient_iff j [line] [a]) as (v & w & V & W & IFF); [discriminate|intros g [<-|[]]; apply line_smooth|].
  exists v. split; [exact V|]. intros G. apply line_mpi_gradient in W. pose proof (proj1 IFF G 0%nat ltac:(cbn; lia)) as Z.
  apply Rmult_integral in Z. destruct Z; [contradiction|lra].
Qed.

(** A batch point at distance 3, with radius 3 and width 1. *)
Lemma regular_example : regular [3] ([0], 3, 1).
Proof.
  assert (D : distance [3] [0] = 3).
  { unfold distance. cbn [combine map fst snd sumR fold_right]. replace ((3 - 0) * (3 - 0) + 0) with (3 * 3) by ring. apply sqrt_square. lra. }
  unfold regular. rewrite D. split; [reflexivity|]. split; [lra|]. split; [lra|]. replace ((3 - 3) / 1) with 0 by field. rewrite cdf_0.
  apply Rinv_le_contravar; [lra|]. assert (10 ^ 1 <= 10 ^ 50) by (apply Rle_pow; [lra|lia]). rewrite pow_1 in *. lra.
Qed.
Lemma flat_gradient a : gradient (u_value flat) [a] (u_grad flat [a]).
Proof. split; [reflexivity|]. intros [|i] I; [|cbn in I; lia]. unfold partial. cbn. apply d_const. Qed.
