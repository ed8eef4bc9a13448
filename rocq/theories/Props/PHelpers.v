(** C91-C92: the Lipschitz constant of local penalization; predictions of the random forest.
    Specification: Spec/HelperSpec.v, Spec/RSpec.v, Spec/UtilSpec.v.  Model: Model/Helpers.v. *)
From Coq Require Import Reals Lra Psatz List Lia Permutation.
From Coquelicot Require Import Coquelicot.
From Verif.Model Require Import Py AcqR Util Helpers.
From Verif.Spec Require Import RSpec UtilSpec HelperSpec.
From Verif.Proof Require Import UtilP HelperP.
Import ListNotations.
Local Open Scope R_scope.

(** ---------------------------------------------------------------- C91 *)
(** An estimate is always returned and is positive, whatever the gradients and the solver. *)
Theorem C91_positive : forall grad solve u bounds X,
  exists L, lipschitz grad solve u bounds X = Ok L /\ / 10 ^ 7 <= L.
Proof.
  intros grad solve u bounds X. destruct (lipschitz_total grad solve u bounds X) as (L & H). exists L. split; auto. eapply lipschitz_min; eauto.
Qed.
Print Assumptions C91_positive.

(** It is at least the length of the gradient at each of the 500 random points and at each data point, if the solver does
    not end above its start. *)
Theorem C91_covers_samples : forall grad solve u bounds X L s, proper bounds u X -> descends solve (df grad) bounds ->
  lipschitz grad solve u bounds X = Ok L -> In s (samples_multidimensional_uniform u bounds 500) \/ In s X -> norm2 (grad s) <= L.
Proof. intros grad solve u bounds X L s P D H I. eapply lipschitz_samples; eauto. now apply in_or_app. Qed.
Print Assumptions C91_covers_samples.

(** It is at most the largest slope in the box, or 10. *)
Theorem C91_not_above : forall grad solve u bounds X L B, proper bounds u X -> attains solve (df grad) bounds ->
  (forall x, in_box bounds x -> norm2 (grad x) <= B) -> lipschitz grad solve u bounds X = Ok L -> L <= Rmax B 10.
Proof. intros grad solve u bounds X L B P A H. exact (lipschitz_bounded grad solve u bounds X P L B A H). Qed.
Print Assumptions C91_not_above.

(** If the solver finds the minimum over the box, the estimate is a Lipschitz constant of the predictive mean on the box. *)
Theorem C91_lipschitz_constant : forall f grad solve u bounds X L, proper bounds u X ->
  (forall x, in_box bounds x -> derivative_at f x (grad x)) -> minimizes solve (df grad) bounds ->
  lipschitz grad solve u bounds X = Ok L -> lipschitz_on bounds f L.
Proof.
  intros f grad solve u bounds X L P D M H. apply (gradient_lipschitz bounds f grad L D). intros x I. eapply lipschitz_box; eauto.
Qed.
Print Assumptions C91_lipschitz_constant.

(** A solver that finds only a local minimum is not enough: mean 50 x^2 on [0, 1], all points at 0. *)
Definition square50 (x : pt) : R := match x with [] => 0 | a :: _ => 50 * a * a end.
Definition slope50 (x : pt) : pt := match x with [] => [] | a :: _ => [100 * a] end.
Definition stays (f : pt -> R) (x0 : pt) (bounds : list (R * R)) : R := f x0.
Theorem C91_local_minimum_refuted :
  proper [(0, 1)] (fun _ _ => 0) [[0]] /\ (forall x, in_box [(0, 1)] x -> derivative_at square50 x (slope50 x)) /\
  descends stays (df slope50) [(0, 1)] /\ attains stays (df slope50) [(0, 1)] /\
  exists L, lipschitz slope50 stays (fun _ _ => 0) [(0, 1)] [[0]] = Ok L /\ ~ lipschitz_on [(0, 1)] square50 L.
Proof.
  assert (B0 : in_box [(0, 1)] [0]) by (repeat constructor; cbn; lra).
  assert (PR : proper [(0, 1)] (fun _ _ => 0) [[0]]).
  { split; [repeat constructor; cbn; lra|]. split; [intros; lra|]. constructor; [exact B0|constructor]. }
  split; [exact PR|]. split.
  { intros x I. inversion I as [|? a ? l _ N]; subst. inversion N; subst. split; [reflexivity|]. intros [|d [|d' l]] LD; try discriminate.
    unfold move, inner, sumR. cbn. auto_derive; [auto|ring]. }
  split; [intros x0 _; unfold stays; lra|]. split; [intros x0 I; exists x0; split; auto|].
  exists 10. split.
  { destruct (lipschitz_total slope50 stays (fun _ _ => 0) [(0, 1)] [[0]]) as (L & H). rewrite H. f_equal.
    apply lipschitz_ok in H as (x1 & I1 & -> & _). assert (x1 = [0]) as ->.
    { apply in_app_or in I1 as [I|[<-|[]]]; [|reflexivity]. apply in_map_iff in I as (i & <- & _). cbn. f_equal. ring. }
    unfold stays, df, slope50. cbn. replace (100 * 0 * (100 * 0) + 0) with 0 by ring. rewrite sqrt_0. unfold estimate_L. cbv zeta.
    destruct (Rlt_dec (- - 0) (/ 10 ^ 7)) as [_|N]; [reflexivity|]. exfalso. apply N. pose proof e7. lra. }
  intros H. specialize (H [1] [0]). assert (B1 : in_box [(0, 1)] [1]) by (repeat constructor; cbn; lra). specialize (H B1 B0).
  unfold square50, distance, sumR in H. cbn in H. replace ((1 - 0) * (1 - 0) + 0) with 1 in H by ring. rewrite sqrt_1 in H.
  replace (50 * 1 * 1 - 50 * 0 * 0) with 50 in H by ring. rewrite Rabs_right in H by lra. lra.
Qed.
Print Assumptions C91_local_minimum_refuted.

(** A linear mean: the solver may return the value at any point of the box. *)
Definition lin3 (x : pt) : R := match x with [] => 0 | a :: _ => 3 * a end.
Definition slope3 (x : pt) : pt := [3].
Example C91_nonvacuous :
  proper [(0, 1)] (fun _ _ => / 2) [[0]; [1]] /\ (forall x, in_box [(0, 1)] x -> derivative_at lin3 x (slope3 x)) /\
  descends stays (df slope3) [(0, 1)] /\ attains stays (df slope3) [(0, 1)] /\ minimizes stays (df slope3) [(0, 1)] /\
  (forall x, in_box [(0, 1)] x -> norm2 (slope3 x) <= 3) /\
  lipschitz slope3 stays (fun _ _ => / 2) [(0, 1)] [[0]; [1]] = Ok 3.
Proof.
  assert (N3 : sqrt (3 * 3 + 0) = 3) by (replace (3 * 3 + 0) with (3 * 3) by ring; apply sqrt_square; lra).
  split; [split; [repeat constructor; cbn; lra|]; split; [intros; lra|]; repeat constructor; cbn; lra|]. split.
  { intros x I. inversion I as [|? a ? l _ N]; subst. inversion N; subst. split; [reflexivity|]. intros [|d [|d' l]] LD; try discriminate.
    unfold move, inner, sumR. cbn. auto_derive; [auto|ring]. }
  split; [intros x0 _; unfold stays; lra|]. split; [intros x0 I; exists x0; split; auto|].
  split; [intros x0 x _ _; unfold stays, df, slope3; lra|].
  split; [intros x _; unfold norm2, slope3, sumR; cbn; rewrite N3; lra|].
  destruct (lipschitz_total slope3 stays (fun _ _ => / 2) [(0, 1)] [[0]; [1]]) as (L & H). rewrite H. f_equal.
  apply lipschitz_ok in H as (x0 & _ & -> & _). unfold stays, df, slope3. cbn [map fold_right]. rewrite N3. unfold estimate_L. cbv zeta.
  destruct (Rlt_dec _ _) as [N|_]; [|lra]. exfalso. assert (/ 10 ^ 7 < 1); [|lra].
  apply Rmult_lt_reg_r with (10 ^ 7); [lra|]. rewrite Rinv_l by lra. lra.
Qed.

(** ---------------------------------------------------------------- C92 *)
(** One mean and one deviation per row.  The mean is the average of the trees, lies between their smallest and largest
    prediction and does not depend on their order; the deviation is their standard deviation, at most half their range, and 0
    exactly when all trees agree. *)
Theorem C92_predictions : forall (trees : list (pt -> R)) X k x, trees <> [] -> nth_error X k = Some x ->
  length (fst (rf_predict trees X)) = length X /\ length (snd (rf_predict trees X)) = length X /\
  let P := map (fun t => t x) trees in
  nth_error (fst (rf_predict trees X)) k = Some (average P) /\ nth_error (snd (rf_predict trees X)) k = Some (deviation P) /\
  0 <= deviation P /\ (deviation P = 0 <-> constant P) /\
  (forall lo hi, (forall t, In t trees -> lo <= t x <= hi) -> lo <= average P <= hi /\ deviation P <= (hi - lo) / 2).
Proof.
  intros trees X k x NE N. unfold rf_predict. cbn [fst snd]. rewrite !map_length. split; auto. split; auto. set (P := map (fun t => t x) trees).
  assert (NP : P <> []) by (unfold P; destruct trees; [congruence|discriminate]).
  rewrite !nth_error_map, N. cbn [option_map]. split; [reflexivity|]. split; [reflexivity|]. split; [apply std_nonneg|]. split; [apply (std_zero_iff P NP)|].
  intros lo hi H. assert (H' : forall y, In y P -> lo <= y <= hi) by (intros y I; apply in_map_iff in I as (t & <- & I); auto).
  split; [exact (mean_between P lo hi NP H')|exact (std_range P lo hi NP H')].
Qed.
Print Assumptions C92_predictions.

Theorem C92_tree_order : forall trees trees' X, Permutation trees trees' -> rf_predict trees X = rf_predict trees' X.
Proof.
  intros trees trees' X P. unfold rf_predict. f_equal; apply map_ext; intro x; [apply mean_perm|apply std_perm]; now apply Permutation_map.
Qed.
Print Assumptions C92_tree_order.

(** get_fmin is the smallest predicted mean over the data, and is attained there. *)
Theorem C92_fmin : forall trees X m, rf_get_fmin trees X = Ok m ->
  In m (fst (rf_predict trees X)) /\ forall y, In y (fst (rf_predict trees X)) -> m <= y.
Proof.
  intros trees X m H. unfold rf_get_fmin in H. destruct X as [|x X]; [discriminate|]. injection H as <-. exact (lmin_spec (fst (rf_predict trees (x :: X))) ltac:(discriminate)).
Qed.
Print Assumptions C92_fmin.

Example C92_nonvacuous :
  rf_predict [(fun x => nth 0 x 0); (fun x => 4)] [[2]; [4]] = ([3; 4], [1; 0]) /\ rf_get_fmin [(fun x => nth 0 x 0); (fun x => 4)] [[2]; [4]] = Ok 3.
Proof.
  assert (E1 : mean [2; 4] = 3) by (unfold mean, total; cbn; lra). assert (E2 : mean [4; 4] = 4) by (unfold mean, total; cbn; lra).
  assert (S1 : std [2; 4] = 1). { unfold std. rewrite E1. unfold mean, total. cbn. replace (((2 - 3) * (2 - 3) + ((4 - 3) * (4 - 3) + 0)) / (1 + 1)) with 1 by field. apply sqrt_1. }
  assert (S2 : std [4; 4] = 0). { unfold std. rewrite E2. unfold mean, total. cbn. replace (((4 - 4) * (4 - 4) + ((4 - 4) * (4 - 4) + 0)) / (1 + 1)) with 0 by field. apply sqrt_0. }
  unfold rf_predict, rf_get_fmin. cbn [map nth]. rewrite E1, E2, S1, S2. split; [reflexivity|]. f_equal. unfold Util.lmin. cbn [fold_left]. apply Rmin_left. lra.
Qed.
