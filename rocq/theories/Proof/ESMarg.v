(** Entropy search: the marginal kept by the sweeps is the Gaussian times the messages. *)
From Coq Require Import Reals Lra Psatz List Lia Bool Arith.
From Coquelicot Require Import Coquelicot.
From Verif.Model Require Import AcqR ES.
From Verif.Spec Require Import RSpec ESSpec.
From Verif.Proof Require Import Gauss GaussP AcqP AcqM ESP ESP2.
Import ListNotations.
Local Open Scope R_scope.

Lemma other_ne k a : other k a <> k.
Proof. unfold other. destruct (Nat.ltb_spec a k); lia. Qed.
Lemma other_lt D k a : (k < D)%nat -> (a < D - 1)%nat -> (other k a < D)%nat.
Proof. intros K A. unfold other. destruct (Nat.ltb_spec a k); lia. Qed.
Theorem other_all D k : (k < D)%nat ->
  (forall a b, other k a = other k b -> a = b) /\ (forall l, (l < D)%nat -> l <> k <-> exists a, (a < D - 1)%nat /\ other k a = l).
Proof.
  intros K. split.
  - intros a b. unfold other. destruct (Nat.ltb_spec a k), (Nat.ltb_spec b k); lia.
  - intros l L. split.
    + intros N. destruct (Nat.ltb_spec l k) as [C|C].
      * exists l. split; [lia|]. unfold other. destruct (Nat.ltb_spec l k); lia.
      * exists (l - 1)%nat. split; [lia|]. unfold other. destruct (Nat.ltb_spec (l - 1) k); lia.
    + intros [a [A <-]]. apply other_ne.
Qed.

(** ---- contrasts are linear *)
Lemma contrast_ext s l f g : (f l = g l) -> (f s = g s) -> contrast s l f = contrast s l g.
Proof. unfold contrast. now intros -> ->. Qed.
Lemma contrast_lin s l a b f g : contrast s l (fun i => a * f i + b * g i) = a * contrast s l f + b * contrast s l g.
Proof. unfold contrast. pose proof sqrt2_pos. field. lra. Qed.
Lemma contrast_scal s l a f : contrast s l (fun i => a * f i) = a * contrast s l f.
Proof. unfold contrast. pose proof sqrt2_pos. field. lra. Qed.
Lemma contrast_sum s l n (f : nat -> nat -> R) : contrast s l (fun i => rsum n (fun a => f a i)) = rsum n (fun a => contrast s l (f a)).
Proof.
  unfold contrast. rewrite (rsum_ext n (fun a => (f a l - f a s) / sqrt 2) (fun a => / sqrt 2 * (f a l - f a s))) by (intros; unfold Rdiv; ring).
  rewrite rsum_scal, rsum_minus. unfold Rdiv. ring.
Qed.
Lemma contrast_swap s l s' l' (f : nat -> nat -> R) :
  contrast s l (fun i => contrast s' l' (f i)) = contrast s' l' (fun j => contrast s l (fun i => f i j)).
Proof. unfold contrast. pose proof sqrt2_pos. field. lra. Qed.
Definition coef (s l i : nat) : R := (delta i l - delta i s) / sqrt 2.
Lemma contrast_coef D s l f : (s < D)%nat -> (l < D)%nat -> rsum D (fun i => coef s l i * f i) = contrast s l f.
Proof.
  intros S L. unfold coef. rewrite (rsum_ext D _ (fun i => / sqrt 2 * (delta i l * f i - delta i s * f i))) by (intros; unfold Rdiv; ring).
  rewrite rsum_scal, rsum_minus, !rsum_delta by assumption. unfold contrast, Rdiv. ring.
Qed.
Lemma coef_at_l s l : s <> l -> coef s l l = / sqrt 2.
Proof. intros N. unfold coef, delta. rewrite Nat.eqb_refl. destruct (Nat.eqb_spec l s); [congruence|]. unfold Rdiv. ring. Qed.
Lemma rsum_nonneg n f : (forall i, (i < n)%nat -> 0 <= f i) -> 0 <= rsum n f.
Proof. induction n as [|n IH]; intros H; cbn [rsum]; [lra|]. specialize (IH ltac:(intros; apply H; lia)). specialize (H n ltac:(lia)). lra. Qed.
Lemma rsum_one n f i : (i < n)%nat -> (forall j, (j < n)%nat -> 0 <= f j) -> f i <= rsum n f.
Proof.
  induction n as [|n IH]; intros I H; [lia|]. cbn [rsum]. destruct (Nat.eq_dec i n) as [->|N].
  - pose proof (rsum_nonneg n f ltac:(intros; apply H; lia)). lra.
  - specialize (IH ltac:(lia) ltac:(intros; apply H; lia)). specialize (H n ltac:(lia)). lra.
Qed.
Lemma rsum_fset n P i p (X : nat -> R) : (i < n)%nat -> rsum n (fun a => fset P i p a * X a) = rsum n (fun a => P a * X a) + (p - P i) * X i.
Proof.
  intros I. rewrite (rsum_ext n _ (fun a => P a * X a + delta a i * ((p - P i) * X a))).
  - now rewrite rsum_plus, (rsum_delta n i (fun a => (p - P i) * X a)).
  - intros a _. unfold fset, delta. destruct (Nat.eqb_spec a i) as [->|]; ring.
Qed.

Lemma some_nonzero n (y : vect) : (exists i, (i < n)%nat /\ y i <> 0) \/ (forall i, (i < n)%nat -> y i = 0).
Proof.
  induction n as [|n [[i [I N]]|A]]; [right; intros; lia|left; exists i; split; [lia|exact N]|].
  destruct (Req_dec (y n) 0) as [Z|Z]; [right|left; exists n; split; [lia|exact Z]]. intros i I. destruct (Nat.eq_dec i n) as [->|]; [exact Z|apply A; lia].
Qed.

Section Marg.
Variables (D k : nat) (Mu : vect) (Sigma : matr).
Hypothesis KD : (k < D)%nat.

Hypothesis PD : positive_definite D Sigma.
Notation ph a := (contrast k (other k a)).
Definition inv_marg (P MP M : vect) (V : matr) : Prop :=
  (forall i j, V i j + rsum (D - 1) (fun a => P a * (ph a (Sigma i) * ph a (fun m => V m j))) = Sigma i j) /\
  (forall i, M i + rsum (D - 1) (fun a => P a * (ph a (Sigma i) * ph a M)) = Mu i + rsum (D - 1) (fun a => MP a * ph a (Sigma i))).
Lemma inv_spec P MP M V : inv_marg P MP M V <-> carries_messages D k Mu Sigma P MP M V.
Proof.
  unfold inv_marg, carries_messages. split; intros [H1 H2]; split; intros.
  - rewrite sum_to_rsum. rewrite <- (H1 i j). f_equal. apply rsum_ext. intros. ring.
  - rewrite !sum_to_rsum. rewrite <- (H2 i). f_equal. apply rsum_ext. intros. ring.
  - rewrite <- (H1 i j). rewrite sum_to_rsum. f_equal. apply rsum_ext. intros. ring.
  - rewrite <- (sum_to_rsum _ (fun a => MP a * _)). rewrite <- (H2 i). rewrite !sum_to_rsum. f_equal. apply rsum_ext. intros. ring.
Qed.
(** the first equation contracted with a contrast on the right *)
Lemma contracted P V s l : (forall i j, V i j + rsum (D - 1) (fun a => P a * (ph a (Sigma i) * ph a (fun m => V m j))) = Sigma i j) ->
  forall i, contrast s l (V i) + rsum (D - 1) (fun a => P a * (ph a (Sigma i) * ph a (fun m => contrast s l (V m)))) = contrast s l (Sigma i).
Proof.
  intros H i. rewrite <- (contrast_ext s l (fun j => 1 * V i j + 1 * rsum (D - 1) (fun a => P a * (ph a (Sigma i) * ph a (fun m => V m j)))) (Sigma i))
    by (rewrite !Rmult_1_l; apply H).
  rewrite contrast_lin, !Rmult_1_l, contrast_sum. f_equal. apply rsum_ext. intros a _.
  rewrite (contrast_ext s l _ (fun j => (P a * ph a (Sigma i)) * ph a (fun m => V m j))) by ring.
  rewrite contrast_scal, (contrast_swap k (other k a) s l). ring.
Qed.
(** the precision of a message is smaller than the inverse of the marginal variance along its contrast *)
Lemma denominators P MP M V a0 : (a0 < D - 1)%nat -> symmetric V -> (forall a, 0 <= P a) -> inv_marg P MP M V ->
  let v := ph a0 (fun m => ph a0 (V m)) in 0 < v /\ P a0 * v < 1.
Proof.
  intros A0 SV PP [H1 _] v. set (u := fun m => ph a0 (V m)). set (t := fun a => ph a u).
  pose proof (contracted P V k (other k a0) H1) as HU. fold u in HU.
  pose proof (other_lt D k a0 KD A0) as L0. pose proof (other_ne k a0) as N0.
  set (y := fun i => coef k (other k a0) i - rsum (D - 1) (fun a => P a * t a * coef k (other k a) i)).
  (* a row of any function against y *)
  assert (Y : forall f, rsum D (fun i => y i * f i) = ph a0 f - rsum (D - 1) (fun a => P a * t a * ph a f)).
  { intros f. unfold y. rewrite (rsum_ext D _ (fun i => coef k (other k a0) i * f i - rsum (D - 1) (fun a => (P a * t a) * (coef k (other k a) i * f i)))).
    - rewrite rsum_minus, contrast_coef by assumption. f_equal. rewrite rsum_swap. apply rsum_ext. intros a A.
      rewrite rsum_scal, contrast_coef; [reflexivity|exact KD|now apply other_lt].
    - intros i _. rewrite Rmult_minus_distr_r. f_equal. rewrite Rmult_comm, <- rsum_scal. apply rsum_ext. intros. ring. }
  assert (SY : forall i, rsum D (fun j => y j * Sigma i j) = u i).
  { intros i. rewrite Y. specialize (HU i). rewrite <- HU. unfold u at 1. unfold t.
    rewrite (rsum_ext (D - 1) (fun a => P a * ph a u * ph a (Sigma i)) (fun a => P a * (ph a (Sigma i) * ph a u))) by (intros; ring).
    unfold u. ring. }
  assert (Q : sum_to D (fun i => sum_to D (fun j => y i * Sigma i j * y j)) = v - rsum (D - 1) (fun a => P a * (t a * t a))).
  { rewrite sum_to_rsum. rewrite (rsum_ext D _ (fun i => y i * u i)).
    - rewrite Y. unfold v. fold u. f_equal. apply rsum_ext. intros. unfold t. ring.
    - intros i _. rewrite sum_to_rsum, <- SY, <- rsum_scal. apply rsum_ext. intros. ring. }
  assert (NZ : exists i, (i < D)%nat /\ y i <> 0).
  { destruct (Req_dec (y (other k a0)) 0) as [Z|Z]; [|now exists (other k a0)].
    destruct (some_nonzero D y) as [E|ALL]; [exact E|exfalso].
    assert (U0 : forall i, u i = 0). { intros i. rewrite <- SY, (rsum_ext D _ (fun _ => 0)), rsum_zero; [reflexivity|]. intros j J. rewrite ALL by exact J. ring. }
    assert (T0 : forall a, t a = 0). { intros a. unfold t, contrast. rewrite !U0. unfold Rdiv. ring. }
    assert (E : y (other k a0) = / sqrt 2).
    { unfold y. rewrite coef_at_l by (intros C; now apply N0). rewrite (rsum_ext _ _ (fun _ => 0)), rsum_zero; [ring|]. intros a _. rewrite T0. ring. }
    rewrite E in Z. pose proof (Rinv_0_lt_compat _ sqrt2_pos). lra. }
  pose proof (PD y NZ) as POS. rewrite Q in POS.
  assert (TV : t a0 = v) by reflexivity.
  pose proof (rsum_one (D - 1) (fun a => P a * (t a * t a)) a0 A0 ltac:(intros j _; pose proof (PP j); nra)) as ONE. cbv beta in ONE. rewrite TV in ONE.
  specialize (PP a0). assert (V0 : 0 < v) by nra. split; [exact V0|]. nra.
Qed.
Lemma marg_step P MP M V a0 gamma : (a0 < D - 1)%nat -> symmetric V -> (forall a, 0 <= P a) -> inv_marg P MP M V ->
  let q := lt_factor k (other k a0) M V (MP a0) (P a0) gamma in fa_d q <> None ->
  inv_marg (fset P a0 (fa_p q)) (fset MP a0 (fa_mp q)) (fa_M q) (fa_V q).
Proof.
  intros A0 SV PP INV q FD. destruct (denominators P MP M V a0 A0 SV PP INV) as [V0 PV].
  pose proof (message_nonneg k (other k a0) M V (MP a0) (P a0) gamma FD) as PN. fold q in PN.
  set (v := ph a0 (fun m => ph a0 (V m))) in *.
  assert (DEN : 1 + (fa_p q - P a0) * v <> 0) by nra.
  destruct (ep_update k (other k a0) M V (MP a0) (P a0) gamma SV FD DEN) as (UV & UM & _). fold q in UV, UM.
  set (dp := fa_p q - P a0) in *. set (dmp := fa_mp q - MP a0) in *. destruct INV as [H1 H2].
  pose proof (contracted P V k (other k a0) H1) as HU. set (u := fun m => ph a0 (V m)) in HU.
  split.
  - intros i j. rewrite (rsum_fset (D - 1) P a0 (fa_p q) (fun a => ph a (Sigma i) * ph a (fun m => fa_V q m j)) A0). fold dp.
    set (w := ph a0 (fun m => fa_V q m j)). assert (W : forall m, fa_V q m j = 1 * V m j + (- dp * w) * u m) by (intros m; rewrite <- (UV m j); unfold u, w; ring).
    rewrite (rsum_ext (D - 1) _ (fun a => P a * (ph a (Sigma i) * ph a (fun m => V m j)) + (- dp * w) * (P a * (ph a (Sigma i) * ph a u)))).
    + rewrite rsum_plus, rsum_scal. pose proof (H1 i j) as E1. pose proof (HU i) as E2. pose proof (W i) as E3. fold (u i) in E2. fold u in E2.
      set (x1 := rsum _ (fun a => P a * (ph a (Sigma i) * ph a (fun m => V m j)))) in *. set (x2 := rsum _ (fun a => P a * (ph a (Sigma i) * ph a u))) in *.
      rewrite E3. rewrite <- E1, <- E2. fold w. ring.
    + intros a _. rewrite (contrast_ext k (other k a) (fun m => fa_V q m j) (fun m => 1 * V m j + (- dp * w) * u m)) by apply W. rewrite contrast_lin. ring.
  - intros i. rewrite (rsum_fset (D - 1) P a0 (fa_p q) (fun a => ph a (Sigma i) * ph a (fa_M q)) A0).
    rewrite (rsum_fset (D - 1) MP a0 (fa_mp q) (fun a => ph a (Sigma i)) A0). fold dp dmp.
    set (w := ph a0 (fa_M q)). assert (W : forall m, fa_M q m = 1 * M m + (dmp - dp * w) * u m) by (intros m; pose proof (UM m) as E; unfold u, w in *; lra).
    rewrite (rsum_ext (D - 1) _ (fun a => P a * (ph a (Sigma i) * ph a M) + (dmp - dp * w) * (P a * (ph a (Sigma i) * ph a u)))).
    + rewrite rsum_plus, rsum_scal. pose proof (H2 i) as E1. pose proof (HU i) as E2. pose proof (W i) as E3. fold (u i) in E2. fold u in E2.
      set (x1 := rsum _ (fun a => P a * (ph a (Sigma i) * ph a M))) in *. set (x2 := rsum _ (fun a => P a * (ph a (Sigma i) * ph a u))) in *.
      rewrite E3. rewrite Rplus_assoc, <- (Rplus_assoc (Mu i)). rewrite <- E1, <- E2. ring.
    + intros a _. rewrite (contrast_ext k (other k a) (fa_M q) (fun m => 1 * M m + (dmp - dp * w) * u m)) by apply W. rewrite contrast_lin. ring.
Qed.
Lemma one_sweep_marg todo : forall i gamma w diff w' diff', (i + todo = D - 1)%nat -> (forall j, 0 <= sw_P w j) -> symmetric (sw_V w) ->
  inv_marg (sw_P w) (sw_MP w) (sw_M w) (sw_V w) -> one_sweep todo i k gamma w diff = Some (w', diff') ->
  inv_marg (sw_P w') (sw_MP w') (sw_M w') (sw_V w').
Proof.
  induction todo as [|todo IH]; intros i gamma w diff w' diff' I P SV INV E; cbn [one_sweep] in E.
  - now injection E as <- _.
  - change (if Nat.ltb i k then i else S i) with (other k i) in E.
    destruct (fa_d (lt_factor k (other k i) (sw_M w) (sw_V w) (sw_MP w i) (sw_P w i) gamma)) as [d|] eqn:FD; [|discriminate].
    apply IH in E; [exact E|lia| | |]; cbn [sw_P sw_V sw_MP sw_M].
    + intros j. unfold fset. destruct (Nat.eqb j i); [|apply P]. apply message_nonneg. congruence.
    + now apply message_symmetric.
    + apply marg_step; try assumption; [lia|congruence].
Qed.
Lemma sweeps_marg count : forall gamma w w', (forall j, 0 <= sw_P w j) -> symmetric (sw_V w) ->
  inv_marg (sw_P w) (sw_MP w) (sw_M w) (sw_V w) -> sweeps count D k gamma w = Some w' ->
  inv_marg (sw_P w') (sw_MP w') (sw_M w') (sw_V w').
Proof.
  induction count as [|count IH]; intros gamma w w' P SV INV E; cbn [sweeps] in E; [now injection E as <-|].
  destruct (one_sweep (D - 1) 0 k gamma w 0) as [[w1 diff]|] eqn:O; [|discriminate].
  destruct (one_sweep_inv _ _ _ _ _ _ _ _ P SV O) as [P1 S1].
  pose proof (one_sweep_marg (D - 1) 0 gamma w 0 w1 diff eq_refl P SV INV O) as I1.
  destruct (Rlt_dec _ _); [injection E as <-; exact I1|]. exact (IH gamma w1 w' P1 S1 I1 E).
Qed.
Lemma start_marg : inv_marg (fun _ => 0) (fun _ => 0) Mu Sigma.
Proof.
  split; intros.
  - rewrite (rsum_ext _ _ (fun _ => 0)), rsum_zero; [ring|]. intros. ring.
  - f_equal. rewrite (rsum_ext _ _ (fun _ => 0)), rsum_zero; [|intros; ring]. rewrite (rsum_ext _ _ (fun _ => 0)), rsum_zero; [reflexivity|intros; ring].
Qed.
End Marg.
Theorem marginals count D k Mu Sigma w : (k < D)%nat -> symmetric Sigma -> positive_definite D Sigma ->
  sweeps count D k 1 (start Mu Sigma) = Some w -> carries_messages D k Mu Sigma (sw_P w) (sw_MP w) (sw_M w) (sw_V w).
Proof.
  intros K SS PD E. apply inv_spec. apply (sweeps_marg D k Mu Sigma K PD count 1 (start Mu Sigma) w); [intros; apply Rle_refl|exact SS|apply start_marg|exact E].
Qed.
