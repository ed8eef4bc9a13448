(** Integrated acquisitions and local penalization. *)
From Coq Require Import Reals Lra Psatz List Lia Bool.
From Coquelicot Require Import Coquelicot.
From Verif.Model Require Import AcqR.
From Verif.Spec Require Import RSpec AcqSpec.
From Verif.Proof Require Import Gauss GaussP AcqP AcqG.
Import ListNotations.
Local Open Scope R_scope.

Lemma fold_plus l : forall a, fold_left Rplus l a = a + sumR l.
Proof. unfold sumR. induction l as [|b l IH]; intros a; cbn; [ring|]. rewrite IH. ring. Qed.
Lemma running_sum l : running l = sumR l. Proof. unfold running. rewrite fold_plus. ring. Qed.
Lemma running_opt_sum l : l <> [] -> running_opt l = Some (sumR l).
Proof. destruct l as [|a l]; intros H; [congruence|]. cbn [running_opt]. rewrite fold_plus. reflexivity. Qed.
Lemma sumR_ext {A} (f g : A -> R) l : (forall a, In a l -> f a = g a) -> sumR (map f l) = sumR (map g l).
Proof. intros H. f_equal. now apply map_ext_in. Qed.
Lemma combine_map {A B C} (f : A -> B) (g : A -> C) l : combine (map f l) (map g l) = map (fun a => (f a, g a)) l.
Proof. induction l as [|a l IH]; cbn; congruence. Qed.
Lemma sumR_plus {A} (f g : A -> R) l : sumR (map (fun a => f a + g a) l) = sumR (map f l) + sumR (map g l).
Proof. unfold sumR. induction l as [|a l IH]; cbn; [ring|]. rewrite IH. ring. Qed.
Lemma sumR_scal {A} (f : A -> R) c l : sumR (map (fun a => c * f a) l) = c * sumR (map f l).
Proof. unfold sumR. induction l as [|a l IH]; cbn; [ring|]. rewrite IH. ring. Qed.
Lemma fold_vadd_length : forall l a, (forall v, In v l -> length v = length a) -> length (fold_left vadd l a) = length a.
Proof.
  induction l as [|b l IH]; intros a H; cbn; [reflexivity|].
  assert (E : length (vadd a b) = length a) by (unfold vadd; rewrite vzip_length, (H b (or_introl eq_refl)); lia).
  rewrite IH; [exact E|]. intros v I. rewrite E. apply H. now right.
Qed.
Lemma fold_vadd_coord : forall l a i, (forall v, In v l -> length v = length a) -> (i < length a)%nat ->
  coord (fold_left vadd l a) i = coord a i + sumR (map (fun v => coord v i) l).
Proof.
  unfold sumR. induction l as [|b l IH]; intros a i H I; cbn [fold_left map fold_right]; [symmetry; apply Rplus_0_r|].
  assert (Lb : length b = length a) by (apply H; now left).
  assert (E : length (vadd a b) = length a) by (unfold vadd; rewrite vzip_length, Lb; lia).
  rewrite IH; [|intros v J; rewrite E; apply H; now right|rewrite E; exact I]. unfold vadd. rewrite vzip_coord by lia. ring.
Qed.

Lemma d_sum {A} (f : A -> R -> R) (d : A -> R) (l : list A) (x : R) : (forall a, In a l -> is_derive (f a) x (d a)) ->
  is_derive (fun t => sumR (map (fun a => f a t) l)) x (sumR (map d l)).
Proof.
  unfold sumR. induction l as [|a l IH]; intros H; cbn [map fold_right]; [apply d_const|].
  apply d_plus; [apply H; now left|apply IH; intros b I; apply H; now right].
Qed.
(** The average of acquisitions with right gradients has the averaged gradients as gradient. *)
Lemma average_gradient {A} (f : A -> pt -> R) (g : A -> pt) (l : list A) x a0 l0 : l = a0 :: l0 ->
  (forall a, In a l -> gradient (f a) x (g a)) ->
  gradient (fun y => sumR (map (fun a => f a y) l) / INR (length l)) x (map (fun c => c / INR (length l)) (fold_left vadd (map g l0) (g a0))).
Proof.
  intros E H. assert (LG : forall v, In v (map g l0) -> length v = length (g a0)).
  { intros v I. apply in_map_iff in I. destruct I as (a & <- & I).
    pose proof (H a). pose proof (H a0). rewrite E in *. destruct H0 as [-> _]; [now right|]. destruct H1 as [-> _]; [now left|]. reflexivity. }
  assert (L0 : length (g a0) = length x) by (apply H; rewrite E; now left).
  split; [rewrite map_length, fold_vadd_length by exact LG; exact L0|].
  intros i I. rewrite map_coord by (rewrite fold_vadd_length by exact LG; lia). rewrite fold_vadd_coord by (auto; lia). unfold partial.
  assert (D : is_derive (fun t => sumR (map (fun a => f a (put x i t)) l)) (coord x i) (sumR (map (fun a => coord (g a) i) l))).
  { apply (d_sum (fun a t => f a (put x i t)) (fun a => coord (g a) i)). intros a J. exact (proj2 (H a J) i I). }
  eapply d_eq; [apply (d_mult _ (fun _ => / INR (length l)) _ _ 0 D); apply d_const|].
  cbv beta. rewrite E at 1. cbn [map sumR fold_right]. rewrite map_map. unfold sumR, Rdiv. ring.
Qed.

(** ---- C49 *)
Lemma mpi_sample_eq j g x : mpi_sample j (g_mean g x, sqrt (clip (g_var g x)), minimum (map (g_mean g) (g_X g))) = compute_acq (MPI j (GPModel g)) x.
Proof. reflexivity. Qed.
Lemma lcb_sample_eq w g x : lcb_sample w (g_mean g x, sqrt (clip (g_var g x))) = compute_acq (LCB w (GPModel g)) x.
Proof. reflexivity. Qed.
Lemma ei_sample_eq j g x : ei_sample j (g_mean g x, sqrt (clip (g_var g x)), minimum (map (g_mean g) (g_X g))) =
  compute_acq (EI j (GPModel g)) x + 2 * j * compute_acq (MPI j (GPModel g)) x.
Proof.
  set (fm := minimum (map (g_mean g) (g_X g))). set (m := g_mean g x). set (s := sqrt (clip (g_var g x))).
  assert (P : predict (GPModel g) x = (m, s)) by reflexivity.
  rewrite (EI_value _ _ _ _ _ P), (MPI_value _ _ _ _ _ P). change (get_fmin (GPModel g)) with fm.
  unfold ei_sample. rewrite quantiles_spec. cbv zeta. rewrite ei_lin by apply clip_pos.
  replace (fm - m - j) with (fm - j - m) by ring. ring.
Qed.
Theorem MPI_MCMC_average j gs x : MPI_MCMC j (GPModel_MCMC gs) x = average (map (fun g => compute_acq (MPI j (GPModel g)) x) gs).
Proof.
  unfold MPI_MCMC, average. cbn [predicts get_fmins GPModel_MCMC]. rewrite combine_map, map_map, running_sum, !map_length. reflexivity.
Qed.
Theorem LCB_MCMC_average w gs x : LCB_MCMC w (GPModel_MCMC gs) x = average (map (fun g => compute_acq (LCB w (GPModel g)) x) gs).
Proof. unfold LCB_MCMC, average. cbn [predicts GPModel_MCMC]. rewrite map_map, running_sum, !map_length. reflexivity. Qed.
Theorem EI_MCMC_value j gs x : EI_MCMC j (GPModel_MCMC gs) x =
  average (map (fun g => compute_acq (EI j (GPModel g)) x) gs) + 2 * j * average (map (fun g => compute_acq (MPI j (GPModel g)) x) gs).
Proof.
  unfold EI_MCMC, average. cbn [predicts get_fmins GPModel_MCMC]. rewrite combine_map, map_map, running_sum, !map_length.
  rewrite (sumR_ext _ (fun g => compute_acq (EI j (GPModel g)) x + 2 * j * compute_acq (MPI j (GPModel g)) x)) by (intros; apply ei_sample_eq).
  rewrite sumR_plus, sumR_scal. unfold Rdiv. ring.
Qed.
Lemma average_pos {A} (f : A -> R) l : l <> [] -> (forall a, In a l -> 0 < f a) -> 0 < average (map f l).
Proof.
  intros N H. unfold average. rewrite map_length. destruct l as [|a l]; [congruence|].
  apply Rdiv_lt_0_compat; [|apply lt_0_INR; cbn; lia]. unfold sumR. cbn [map fold_right].
  assert (0 <= fold_right Rplus 0 (map f l)).
  { clear N. assert (G : forall b, In b l -> 0 < f b) by (intros; apply H; now right). induction l as [|b l IH]; cbn; [lra|].
    pose proof (G b (or_introl eq_refl)). assert (0 <= fold_right Rplus 0 (map f l)); [|lra]. apply IH; [|intros; apply G; now right].
    intros c [->|I]; [apply H; now left|apply H; right; now right]. }
  pose proof (H a (or_introl eq_refl)). lra.
Qed.
Theorem EI_MCMC_differs j gs x : gs <> [] -> j <> 0 -> EI_MCMC j (GPModel_MCMC gs) x <> average (map (fun g => compute_acq (EI j (GPModel g)) x) gs).
Proof.
  intros N J E. rewrite EI_MCMC_value in E.
  assert (P : 0 < average (map (fun g => compute_acq (MPI j (GPModel g)) x) gs)) by (apply average_pos; [exact N|intros; apply MPI_range]).
  assert (Z : 2 * j * average (map (fun g => compute_acq (MPI j (GPModel g)) x) gs) = 0) by lra.
  apply Rmult_integral in Z. destruct Z; [|lra]. lra.
Qed.

Lemma over_samples_grad (f : gpy -> pt -> R) (d : gpy -> pt) gs x : gs <> [] -> (forall g, In g gs -> gradient (f g) x (d g)) ->
  exists v, over_samples (length gs) (map (fun g => f g x) gs) (map d gs) = Some (average (map (fun g => f g x) gs), v) /\
            gradient (fun y => average (map (fun g => f g y) gs)) x v.
Proof.
  intros N H. destruct gs as [|g0 gs]; [congruence|].
  exists (map (fun c => c / INR (length (g0 :: gs))) (fold_left vadd (map d gs) (d g0))). split.
  - unfold over_samples, average. rewrite map_length, running_opt_sum by discriminate. reflexivity.
  - pose proof (average_gradient f d (g0 :: gs) x g0 gs eq_refl H) as [L D]. split; [exact L|]. intros i I. specialize (D i I). unfold partial in *.
    apply (is_derive_ext (fun t => sumR (map (fun a => f a (put x i t)) (g0 :: gs)) / INR (length (g0 :: gs)))); [|exact D].
    intros t. unfold average. now rewrite map_length.
Qed.
Lemma over_samples_swap n fs dfs a v fs' : over_samples n fs dfs = Some (a, v) -> fs' <> [] -> over_samples n fs' dfs = Some (sumR fs' / INR n, v).
Proof.
  unfold over_samples. intros E N. rewrite (running_opt_sum fs' N). destruct (running_opt fs); [|discriminate].
  destruct (running_vec dfs); [|discriminate]. now injection E as _ <-.
Qed.
Theorem MPI_MCMC_gradient j gs x : gs <> [] -> (forall g, In g gs -> smooth x g) ->
  exists v, MPI_MCMC_withGradients j (GPModel_MCMC gs) x = Some (MPI_MCMC j (GPModel_MCMC gs) x, v) /\
            gradient (MPI_MCMC j (GPModel_MCMC gs)) x v.
Proof.
  intros N H.
  destruct (over_samples_grad (fun g => compute_acq (MPI j (GPModel g))) (fun g => snd (compute_acq_withGradients (MPI j (GPModel g)) x)) gs x N) as (v & O & G).
  { intros g I. destruct (H g I) as (A & B & C). destruct (GP_honest g x A B C) as [HO L]. apply (MPI_gradient j (GPModel g) x HO L). }
  exists v. split.
  - unfold MPI_MCMC_withGradients. cbn [predicts_withGradients get_fmins GPModel_MCMC]. rewrite combine_map, !map_map, map_length, MPI_MCMC_average. exact O.
  - destruct G as [L D]. split; [exact L|]. intros i I. specialize (D i I). unfold partial in *.
    apply (is_derive_ext (fun t => average (map (fun g => compute_acq (MPI j (GPModel g)) (put x i t)) gs))); [|exact D].
    intros t. symmetry. apply MPI_MCMC_average.
Qed.
Theorem LCB_MCMC_gradient w gs x : gs <> [] -> (forall g, In g gs -> smooth x g) ->
  exists v, LCB_MCMC_withGradients w (GPModel_MCMC gs) x = Some (LCB_MCMC w (GPModel_MCMC gs) x, v) /\
            gradient (LCB_MCMC w (GPModel_MCMC gs)) x v.
Proof.
  intros N H.
  destruct (over_samples_grad (fun g => compute_acq (LCB w (GPModel g))) (fun g => snd (compute_acq_withGradients (LCB w (GPModel g)) x)) gs x N) as (v & O & G).
  { intros g I. destruct (H g I) as (A & B & C). destruct (GP_honest g x A B C) as [HO L]. apply (LCB_gradient w (GPModel g) x HO). }
  exists v. split.
  - unfold LCB_MCMC_withGradients. cbn [predicts_withGradients GPModel_MCMC]. rewrite !map_map, map_length, LCB_MCMC_average. exact O.
  - destruct G as [L D]. split; [exact L|]. intros i I. specialize (D i I). unfold partial in *.
    apply (is_derive_ext (fun t => average (map (fun g => compute_acq (LCB w (GPModel g)) (put x i t)) gs))); [|exact D].
    intros t. symmetry. apply LCB_MCMC_average.
Qed.
(** EI: the second component is the gradient of the average of the plain EI, not of the returned value. *)
Theorem EI_MCMC_gradient j gs x : gs <> [] -> (forall g, In g gs -> smooth x g) ->
  exists v, EI_MCMC_withGradients j (GPModel_MCMC gs) x = Some (EI_MCMC j (GPModel_MCMC gs) x, v) /\
            gradient (fun y => average (map (fun g => compute_acq (EI j (GPModel g)) y) gs)) x v /\
            forall i, (i < length x)%nat -> forall d, partial (EI_MCMC j (GPModel_MCMC gs)) x i d ->
              d = coord v i + 2 * j * coord (match MPI_MCMC_withGradients j (GPModel_MCMC gs) x with Some (_, w) => w | None => [] end) i.
Proof.
  intros N H.
  destruct (over_samples_grad (fun g => compute_acq (EI j (GPModel g))) (fun g => snd (compute_acq_withGradients (EI j (GPModel g)) x)) gs x N) as (v & O & G).
  { intros g I. destruct (H g I) as (A & B & C). destruct (GP_honest g x A B C) as [HO L]. apply (EI_gradient j (GPModel g) x HO L). }
  destruct (MPI_MCMC_gradient j gs x N H) as (w & W & GW). rewrite W.
  exists v. split; [|split; [exact G|]].
  - unfold EI_MCMC_withGradients, EI_MCMC. cbn [predicts predicts_withGradients get_fmins GPModel_MCMC]. rewrite !combine_map, !map_map, !map_length, running_sum.
    eapply over_samples_swap; [exact O|]. destruct gs; [congruence|discriminate].
  - intros i I d D. destruct G as [_ GD], GW as [_ GWD]. specialize (GD i I). specialize (GWD i I). unfold partial in *.
    assert (D' : is_derive (fun t => EI_MCMC j (GPModel_MCMC gs) (put x i t)) (coord x i) (coord v i + 2 * j * coord w i)).
    { apply (is_derive_ext (fun t => average (map (fun g => compute_acq (EI j (GPModel g)) (put x i t)) gs) + 2 * j * MPI_MCMC j (GPModel_MCMC gs) (put x i t))).
      - intros t. symmetry. rewrite MPI_MCMC_average. apply EI_MCMC_value.
      - apply d_plus; [exact GD|]. now apply d_scal. }
    apply is_derive_unique in D. apply is_derive_unique in D'. congruence.
Qed.
