(** The incumbent of the acquisitions (C46) and the penalisers (C53). *)
From Coq Require Import Reals Lra List Bool.
From Coquelicot Require Import Coquelicot.
From Verif.Model Require Import AcqR.
From Verif.Spec Require Import RSpec AcqSpec.
From Verif.Proof Require Import GaussP UtilP LPP.
Import ListNotations.
Local Open Scope R_scope.

Lemma minimum_least l : l <> [] -> In (minimum l) l /\ forall y, In y l -> minimum l <= y.
Proof.
  destruct l as [|a l]; intros N; [congruence|]. cbn [minimum]. destruct (fold_min_le l a) as [H1 H2]. split.
  - destruct (fold_min_in l a) as [-> | I]; [now left|now right].
  - intros y [<- | I]; auto.
Qed.
Lemma least_mean g : g_X g <> [] -> (exists x, In x (g_X g) /\ minimum (map (g_mean g) (g_X g)) = g_mean g x) /\
  forall x, In x (g_X g) -> minimum (map (g_mean g) (g_X g)) <= g_mean g x.
Proof.
  intros N. destruct (minimum_least (map (g_mean g) (g_X g))) as (I & L); [destruct (g_X g); [congruence|discriminate]|]. split.
  - apply in_map_iff in I as (x & E & I). eauto.
  - intros x I'. apply L. now apply in_map.
Qed.
Lemma incumbent g : g_X g <> [] -> (exists x, In x (g_X g) /\ get_fmin (GPModel g) = g_mean g x) /\
  forall x, In x (g_X g) -> get_fmin (GPModel g) <= g_mean g x.
Proof. exact (least_mean g). Qed.
Lemma incumbents gs : List.Forall (fun g => g_X g <> []) gs ->
  List.Forall2 (fun g f => (exists x, In x (g_X g) /\ f = g_mean g x) /\ forall x, In x (g_X g) -> f <= g_mean g x) gs (get_fmins (GPModel_MCMC gs)).
Proof.
  intros F. change (get_fmins (GPModel_MCMC gs)) with (map (fun g => minimum (map (g_mean g) (g_X g))) gs).
  induction F as [|g gs N F IH]; [constructor|]. cbn [map]. constructor; [|exact IH]. now apply least_mean.
Qed.

Lemma penaliser M L Min x0 x m s : 0 < L -> predict M x0 = (m, s) ->
  exists P, probability_le (m - Min) (sqrt (Rmax s (/ 10 ^ 16))) (L * distance x x0) P /\ hammer x (hammer_precompute M L Min x0) = ln P.
Proof.
  intros HL E. unfold hammer_precompute. rewrite E. change e16 with (/ 10 ^ 16). assert (P16 : 0 < / 10 ^ 16) by (apply Rinv_0_lt_compat, pow_lt; lra).
  replace (if Rlt_dec s (/ 10 ^ 16) then / 10 ^ 16 else s) with (Rmax s (/ 10 ^ 16)).
  2:{ unfold Rmax. destruct (Rle_dec s (/ 10 ^ 16)), (Rlt_dec s (/ 10 ^ 16)); lra. }
  assert (W : 0 < sqrt (Rmax s (/ 10 ^ 16))) by (apply sqrt_lt_R0; apply Rlt_le_trans with (2 := Rmax_r _ _); exact P16).
  set (w := sqrt (Rmax s (/ 10 ^ 16))) in *. exists (cdf ((L * distance x x0 - (m - Min)) / w)). split; [now apply probability_cdf|].
  cbn [hammer]. rewrite dist_distance. do 2 f_equal. field. split; lra.
Qed.
Lemma penalisers t U M L Min xs x : 0 < L -> exists Ps,
  List.Forall2 (fun x0 P => probability_le (fst (predict M x0) - Min) (sqrt (Rmax (snd (predict M x0)) (/ 10 ^ 16))) (L * distance x x0) P) xs Ps /\
  penalized t U (update_batches M (Some xs) L Min) x = penalized t U (update_batches M None L Min) x - sumR (map ln Ps).
Proof.
  intros HL. cbn [update_batches].
  assert (X : exists Ps, List.Forall2 (fun x0 P => probability_le (fst (predict M x0) - Min) (sqrt (Rmax (snd (predict M x0)) (/ 10 ^ 16))) (L * distance x x0) P) xs Ps /\
    map (hammer x) (map (hammer_precompute M L Min) xs) = map ln Ps).
  { induction xs as [|x0 xs (Ps & F & E)]; [exists []; split; constructor|]. destruct (predict M x0) as (m, s) eqn:P0.
    destruct (penaliser M L Min x0 x m s HL P0) as (P & HP & HE). exists (P :: Ps). split; [constructor; [rewrite P0; exact HP|exact F]|]. cbn [map]. now rewrite HE, E. }
  destruct X as (Ps & F & E). exists Ps. split; [exact F|]. rewrite <- E. exact (penalized_app t U [] (map (hammer_precompute M L Min) xs) x).
Qed.
