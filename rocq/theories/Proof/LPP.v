(** Local penalization. *)
From Coq Require Import Reals Lra Psatz List Lia Bool.
From Coquelicot Require Import Coquelicot.
From Verif.Model Require Import AcqR.
From Verif.Spec Require Import RSpec AcqSpec.
From Verif.Proof Require Import Gauss GaussP AcqP AcqG AcqM.
Import ListNotations.
Local Open Scope R_scope.

Definition ss (x y : list R) : R := sumR (map (fun d => d * d) (vsub x y)).
Lemma dist_ss x y : dist x y = sqrt (ss x y). Proof. reflexivity. Qed.
Lemma dist_distance : forall x y, dist x y = distance x y.
Proof.
  intros x y. unfold dist, distance, sumR. f_equal. revert y. induction x as [|a x IH]; intros [|b y]; cbn; try reflexivity.
  rewrite <- IH. reflexivity.
Qed.
Lemma ss_nonneg : forall x y, 0 <= ss x y.
Proof.
  unfold ss, sumR, vsub. induction x as [|a x IH]; intros [|b y]; cbn; try lra. pose proof (IH y). pose proof (Rle_0_sqr (a - b)). unfold Rsqr in *. lra.
Qed.
Lemma ss_partial : forall x x0 i, length x0 = length x -> (i < length x)%nat ->
  is_derive (fun t => ss (put x i t) x0) (coord x i) (2 * (coord x i - coord x0 i)).
Proof.
  induction x as [|a x IH]; intros [|b x0] i L I; cbn in L, I; try lia. destruct i as [|i].
  - change (fun t => ss (put (a :: x) 0 t) (b :: x0)) with (fun t => (t - b) * (t - b) + ss x x0). cbn [coord nth].
    eapply d_eq; [apply d_plus; [apply d_mult; (apply d_minus; [apply d_id|apply d_const])|apply d_const]|]. cbv beta. unfold coord. cbn [nth]. ring.
  - change (fun t => ss (put (a :: x) (S i) t) (b :: x0)) with (fun t => (a - b) * (a - b) + ss (put x i t) x0).
    change (coord (a :: x) (S i)) with (coord x i). change (coord (b :: x0) (S i)) with (coord x0 i).
    eapply d_eq; [apply d_plus; [apply d_const|apply IH; lia]|]. ring.
Qed.
Lemma dist_partial x x0 i : length x0 = length x -> (i < length x)%nat -> dist x x0 <> 0 ->
  is_derive (fun t => dist (put x i t) x0) (coord x i) ((coord x i - coord x0 i) / dist x x0).
Proof.
  intros L I N. rewrite dist_ss in N. assert (P : 0 < ss x x0).
  { destruct (Rle_lt_or_eq_dec _ _ (ss_nonneg x x0)) as [|E]; [assumption|]. rewrite <- E, sqrt_0 in N. congruence. }
  eapply d_eq; [apply (d_comp sqrt (fun t => ss (put x i t) x0)); [apply d_sqrt; rewrite put_same by exact I; exact P|now apply ss_partial]|].
  cbv beta. rewrite put_same by exact I. rewrite dist_ss. field. exact N.
Qed.

Lemma hammer_neg x h : hammer x h < 0.
Proof. destruct h as [[x0 r] s]. cbn [hammer]. rewrite <- ln_1. apply ln_increasing; [apply cdf_pos|apply cdf_lt_1]. Qed.
Lemma hammers_neg x hs : hs <> [] -> sumR (map (hammer x) hs) < 0.
Proof.
  assert (G : forall l, sumR (map (hammer x) l) <= 0).
  { unfold sumR. induction l as [|h l IH]; cbn; [lra|]. pose proof (hammer_neg x h). lra. }
  destruct hs as [|h hs]; intros N; [congruence|]. unfold sumR in *. cbn. pose proof (hammer_neg x h). pose proof (G hs). lra.
Qed.
Lemma sumR_app l l' : sumR (l ++ l') = sumR l + sumR l'.
Proof. unfold sumR. induction l as [|a l IH]; cbn; [ring|]. rewrite IH. ring. Qed.
Lemma penalized_app t U hs hs' x : penalized t U (hs ++ hs') x = penalized t U hs x - sumR (map (hammer x) hs').
Proof. unfold penalized. rewrite map_app. fold (sumR (map (hammer x) hs ++ map (hammer x) hs')). rewrite sumR_app. fold (sumR (map (hammer x) hs)). ring. Qed.
Lemma penalized_nil t U x : penalized t U [] x = - lp_map t (- u_value U x).
Proof. unfold penalized. cbn. ring. Qed.

(** ---- C53 *)
Theorem more_points_worse t U M L Min xs ys x : ys <> [] ->
  penalized t U (update_batches M (Some xs) L Min) x < penalized t U (update_batches M (Some (xs ++ ys)) L Min) x.
Proof.
  intros N. cbn [update_batches]. rewrite map_app, penalized_app.
  assert (map (hammer_precompute M L Min) ys <> []) by (destruct ys; [congruence|discriminate]).
  pose proof (hammers_neg x _ H). lra.
Qed.
Theorem penalized_worse t U M L Min ys x : ys <> [] ->
  penalized t U (update_batches M None L Min) x < penalized t U (update_batches M (Some ys) L Min) x.
Proof. intros N. apply (more_points_worse t U M L Min [] ys x N). Qed.
Theorem closer_is_worse t U x0 r s x y : 0 < s -> u_value U x = u_value U y -> distance x x0 < distance y x0 ->
  penalized t U [(x0, r, s)] y < penalized t U [(x0, r, s)] x.
Proof.
  intros S E D. rewrite <- !dist_distance in D. unfold penalized. rewrite E. cbn [map fold_right hammer].
  assert (ln (cdf ((dist x x0 - r) / s)) < ln (cdf ((dist y x0 - r) / s))); [|lra].
  apply ln_increasing; [apply cdf_pos|]. apply cdf_incr. unfold Rdiv. apply Rmult_lt_compat_r; [now apply Rinv_0_lt_compat|lra].
Qed.
Theorem lipschitz_positive f : / 10 ^ 7 <= estimate_L f.
Proof.
  unfold estimate_L. destruct (Rlt_dec (- f) (/ 10 ^ 7)); [|lra].
  apply Rle_trans with 1; [|lra]. rewrite <- Rinv_1. apply Rinv_le_contravar; [lra|]. apply pow_R1_Rle. lra.
Qed.
Theorem widths_positive M L Min x0 : 0 < L -> 0 < snd (hammer_precompute M L Min x0).
Proof.
  intros P. unfold hammer_precompute. destruct (predict M x0) as [m s]. cbn [snd]. apply Rdiv_lt_0_compat; [|exact P]. apply sqrt_lt_R0.
  pose proof e16_pos. destruct (Rlt_dec s e16); lra.
Qed.

Lemma softplus_derive f : f < 40 -> is_derive (lp_map TSoftplus) f (lp_scale TSoftplus f).
Proof.
  intros H. assert (P : 0 < exp f) by apply exp_pos. assert (Q : 0 < ln (1 + exp f)) by (rewrite <- ln_1; apply ln_increasing; lra).
  apply (d_ext_loc (fun f => ln (ln (1 + exp f)))).
  - apply (filter_imp (fun t => t < 40)); [|apply (below_near (fun t => t) f 1); [apply d_id|exact H]]. intros t L. cbn [lp_map].
    destruct (Rlt_dec t 40); [reflexivity|contradiction].
  - eapply d_eq.
    + apply (d_comp ln (fun f => ln (1 + exp f))); [now apply d_ln|]. apply (d_comp ln (fun f => 1 + exp f)); [apply d_ln; lra|].
      apply d_plus; [apply d_const|apply d_exp].
    + cbv beta. cbn [lp_scale]. rewrite exp_Ropp. field. lra.
Qed.
Lemma log_derive f : 0 < f -> is_derive (lp_map TNone) f (/ (f + e50)).
Proof.
  intros H. pose proof e50_pos. cbn [lp_map]. eapply d_eq; [apply (d_comp ln (fun f => f + e50)); [apply d_ln; lra|apply d_plus; [apply d_id|apply d_const]]|].
  cbv beta. field. lra.
Qed.
Lemma large_derive f : 40 < f -> is_derive (lp_map TSoftplus) f (/ f).
Proof.
  intros H. apply (d_ext_loc ln); [|apply d_ln; lra]. apply (filter_imp (fun t => 40 < t)); [|apply (above_near (fun t => t) f 1); [apply d_id|exact H]].
  intros t L. cbn [lp_map]. destruct (Rlt_dec t 40); [lra|reflexivity].
Qed.
Lemma other_derive f : is_derive (lp_map TOther) f 1. Proof. cbn [lp_map]. apply d_id. Qed.

Lemma hammer_partial x h i : regular x h -> (i < length x)%nat ->
  is_derive (fun t => hammer (put x i t) h) (coord x i) (d_hammer x h * (coord x i - coord (centre h) i)).
Proof.
  destruct h as [[x0 r] s]. intros (L & S & N & C) I. rewrite <- dist_distance in N, C. fold e50 in C. cbn [hammer d_hammer centre fst].
  eapply d_eq.
  - apply (d_comp ln (fun t => cdf ((dist (put x i t) x0 - r) / s))); [apply d_ln; apply cdf_pos|].
    apply (d_comp cdf (fun t => (dist (put x i t) x0 - r) / s)); [apply cdf_derive|].
    apply (d_mult (fun t => dist (put x i t) x0 - r) (fun _ => / s)); [apply d_minus; [apply (dist_partial x x0 i L I N)|apply d_const]|apply d_const].
  - cbv beta. rewrite put_same by exact I. set (z := (dist x x0 - r) / s) in *. destruct (Rlt_dec (cdf z) e50); [lra|].
    unfold phi. replace (- (z * z) / 2) with (- / 2 * (z * z)) by field. pose proof s2PI_pos. pose proof (cdf_pos z). unfold Rdiv. field. repeat split; lra.
Qed.
Lemma penalized_partial t U hs x k i : is_derive (lp_map t) (- u_value U x) k -> gradient (u_value U) x (u_grad U x) ->
  (forall h, In h hs -> regular x h) -> (i < length x)%nat ->
  partial (penalized t U hs) x i (k * coord (u_grad U x) i - sumR (map (fun h => d_hammer x h * (coord x i - coord (centre h) i)) hs)).
Proof.
  intros K [_ G] H I. unfold partial, penalized.
  eapply d_eq.
  - apply d_plus.
    + apply d_opp. apply (d_comp (lp_map t) (fun u => - u_value U (put x i u))); [rewrite put_same by exact I; exact K|].
      apply d_opp. exact (G i I).
    + apply d_opp. apply (d_sum (fun h t => hammer (put x i t) h) (fun h => d_hammer x h * (coord x i - coord (centre h) i))).
      intros h J. apply hammer_partial; auto.
  - cbv beta. ring.
Qed.
Lemma d_penalized_coord t U hs x i : length (u_grad U x) = length x -> (i < length x)%nat ->
  coord (d_penalized t U hs x) i = lp_scale t (- u_value U x) * coord (u_grad U x) i - sumR (map (d_hammer x) hs).
Proof. intros L I. unfold d_penalized. rewrite map_coord by (rewrite L; exact I). reflexivity. Qed.
Lemma d_penalized_length t U hs x : length (d_penalized t U hs x) = length (u_grad U x). Proof. apply map_length. Qed.

Theorem gradient_without_batch t U x : gradient (u_value U) x (u_grad U x) ->
  t = TOther \/ (t = TSoftplus /\ - u_value U x < 40) -> gradient (penalized t U []) x (d_penalized t U [] x).
Proof.
  intros G H. split; [rewrite d_penalized_length; apply G|]. intros i I. rewrite d_penalized_coord by (try apply G; exact I).
  eapply d_eq; [apply (penalized_partial t U [] x (lp_scale t (- u_value U x)) i); [|exact G|intros h []|exact I]|reflexivity].
  destruct H as [->|[-> L]]; [apply other_derive|now apply softplus_derive].
Qed.
Theorem gradient_log U x : gradient (u_value U) x (u_grad U x) -> u_value U x < 0 ->
  gradient (penalized TNone U []) x (map (fun d => - u_value U x / (- u_value U x + / 10 ^ 50) * d) (d_penalized TNone U [] x)).
Proof.
  intros G H. split; [rewrite map_length, d_penalized_length; apply G|]. intros i I.
  rewrite map_coord by (rewrite d_penalized_length; destruct G as [-> _]; exact I). rewrite d_penalized_coord by (try apply G; exact I).
  eapply d_eq; [apply (penalized_partial TNone U [] x (/ (- u_value U x + e50)) i); [apply log_derive; lra|exact G|intros h []|exact I]|].
  cbn [lp_scale map sumR fold_right]. fold e50. pose proof e50_pos. field. lra.
Qed.
Lemma d_hammer_pos x h : regular x h -> 0 < d_hammer x h.
Proof.
  destruct h as [[x0 r] s]. intros (L & S & N & C). rewrite <- dist_distance in N, C. fold e50 in C. cbn [d_hammer]. destruct (Rlt_dec _ e50); [lra|].
  assert (0 < dist x x0). { rewrite dist_ss in *. pose proof (sqrt_pos (ss x x0)). lra. }
  pose proof (cdf_pos ((dist x x0 - r) / s)). pose proof s2PI_pos.
  apply Rdiv_lt_0_compat; [|assumption]. apply Rmult_lt_0_compat; [|apply exp_pos]. apply Rdiv_lt_0_compat; [lra|]. apply Rmult_lt_0_compat; [apply Rmult_lt_0_compat; lra|lra].
Qed.
(** One batch point: the returned vector is the gradient exactly when every coordinate of x - x0 is 1. *)
Theorem gradient_one_point t U h x : gradient (u_value U) x (u_grad U x) ->
  t = TOther \/ (t = TSoftplus /\ - u_value U x < 40) -> regular x h ->
  (gradient (penalized t U [h]) x (d_penalized t U [h] x) <-> forall i, (i < length x)%nat -> coord x i - coord (centre h) i = 1).
Proof.
  intros G H RG.
  assert (K : is_derive (lp_map t) (- u_value U x) (lp_scale t (- u_value U x))) by (destruct H as [->|[-> L]]; [apply other_derive|now apply softplus_derive]).
  assert (P : forall i, (i < length x)%nat -> partial (penalized t U [h]) x i
    (lp_scale t (- u_value U x) * coord (u_grad U x) i - (d_hammer x h * (coord x i - coord (centre h) i) + 0))).
  { intros i I. apply (penalized_partial t U [h] x _ i K G); [|exact I]. intros h' [<-|[]]. exact RG. }
  pose proof (d_hammer_pos x h RG) as DP. split.
  - intros [_ D] i I. specialize (D i I). specialize (P i I). unfold partial in *. apply is_derive_unique in D. apply is_derive_unique in P.
    rewrite P in D. rewrite d_penalized_coord in D by (try apply G; exact I). cbn [map sumR fold_right] in D.
    assert (Q : d_hammer x h * (coord x i - coord (centre h) i - 1) = 0) by lra. apply Rmult_integral in Q. lra.
  - intros A. split; [rewrite d_penalized_length; apply G|]. intros i I. rewrite d_penalized_coord by (try apply G; exact I).
    eapply d_eq; [exact (P i I)|]. rewrite (A i I). cbn [map sumR fold_right]. ring.
Qed.
