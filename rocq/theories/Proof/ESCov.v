(** Entropy search: closed form of the marginal, and the derivative of log Z along the covariance. *)
From Coq Require Import Reals Lra Psatz List Lia Bool Arith.
From Coquelicot Require Import Coquelicot.
From Verif.Model Require Import AcqR ES.
From Verif.Spec Require Import RSpec ESSpec.
From Verif.Proof Require Import Gauss GaussP AcqP AcqM ESP ESP2 ESEx ESMarg.
Import ListNotations.
Local Open Scope R_scope.

Lemma delta_sum n i f : (i < n)%nat -> rsum n (fun k => (if Nat.eqb i k then 1 else 0) * f k) = f i.
Proof. intros H. rewrite <- (rsum_delta n i f H). apply rsum_ext. intros k _. unfold delta. now rewrite Nat.eqb_sym. Qed.
Lemma delta_sum' n i f : (i < n)%nat -> rsum n (fun k => f k * (if Nat.eqb k i then 1 else 0)) = f i.
Proof. intros H. rewrite <- (rsum_delta n i f H). apply rsum_ext. intros k _. unfold delta. ring. Qed.
Lemma rsum_scal_r n c f : rsum n (fun i => f i * c) = rsum n f * c.
Proof. rewrite (rsum_ext n _ (fun i => c * f i)) by (intros; ring). rewrite rsum_scal. ring. Qed.

(** ---- inverses *)
Lemma inverse_sym n B N : (forall a b, B a b = B b a) -> inverse_of n B N -> forall a b, (a < n)%nat -> (b < n)%nat -> N a b = N b a.
Proof.
  intros SB I a b A Hb.
  assert (T : rsum n (fun c => rsum n (fun d => N d a * B d c) * N c b) = rsum n (fun d => N d a * rsum n (fun c => B d c * N c b))).
  { rewrite (rsum_ext n _ (fun c => rsum n (fun d => N d a * B d c * N c b))) by (intros; now rewrite rsum_scal_r). rewrite rsum_swap.
    apply rsum_ext. intros d _. rewrite <- rsum_scal. apply rsum_ext. intros. ring. }
  rewrite (rsum_ext n _ (fun c => (if Nat.eqb a c then 1 else 0) * N c b)) in T.
  2:{ intros c C. f_equal. rewrite Nat.eqb_sym. rewrite <- (proj1 (I c a C A)), sum_to_rsum. apply rsum_ext. intros d _. rewrite (SB d c). ring. }
  rewrite (rsum_ext n (fun d => N d a * _) (fun d => N d a * (if Nat.eqb d b then 1 else 0))) in T.
  2:{ intros d Hd. f_equal. rewrite <- (proj1 (I d b Hd Hb)), sum_to_rsum. reflexivity. }
  rewrite (delta_sum n a (fun c => N c b)), (delta_sum' n b (fun d => N d a)) in T by assumption. exact T.
Qed.

(** ---- entries of the inverse are differentiable *)
Lemma derive_quadratic f d K delta0 : 0 < delta0 -> (forall t, Rabs t < delta0 -> Rabs (f t - f 0 - t * d) <= K * (t * t)) -> is_derive f 0 d.
Proof.
  intros D0 H. apply is_derive_Reals. intros eps HE.
  assert (K0 : 0 <= Rabs K + 1) by (pose proof (Rabs_pos K); lra).
  assert (DP : 0 < Rmin delta0 (eps / (Rabs K + 1))). { apply Rmin_pos; [exact D0|]. apply Rdiv_lt_0_compat; [exact HE|]. pose proof (Rabs_pos K). lra. }
  exists (mkposreal _ DP). cbn [pos]. intros h HN HH. rewrite Rplus_0_l.
  assert (H1 : Rabs h < delta0) by (eapply Rlt_le_trans; [exact HH|apply Rmin_l]).
  assert (H2 : Rabs h < eps / (Rabs K + 1)) by (eapply Rlt_le_trans; [exact HH|apply Rmin_r]).
  specialize (H h H1). replace ((f h - f 0) / h - d) with ((f h - f 0 - h * d) / h) by (field; exact HN).
  unfold Rdiv. rewrite Rabs_mult, Rabs_inv. pose proof (Rabs_pos_lt h HN) as HP.
  apply (Rmult_lt_reg_r (Rabs h)); [exact HP|]. rewrite Rmult_assoc, Rinv_l by lra. rewrite Rmult_1_r.
  eapply Rle_lt_trans; [exact H|]. replace (h * h) with (Rabs h * Rabs h) by (rewrite <- Rabs_mult; apply Rabs_right; nra).
  pose proof (Rle_abs K). assert (Rabs h * (Rabs K + 1) < eps).
  { apply (Rmult_lt_compat_r (Rabs K + 1)) in H2; [|pose proof (Rabs_pos K); lra]. unfold Rdiv in H2. rewrite Rmult_assoc, Rinv_l in H2 by (pose proof (Rabs_pos K); lra). lra. }
  apply Rle_lt_trans with (Rabs h * (Rabs K + 1) * Rabs h); [nra|]. apply Rmult_lt_compat_r; assumption.
Qed.
Lemma rsum_abs n f : Rabs (rsum n f) <= rsum n (fun i => Rabs (f i)).
Proof. induction n as [|n IH]; cbn [rsum]; [rewrite Rabs_R0; lra|]. pose proof (Rabs_triang (rsum n f) (f n)). lra. Qed.
Lemma rsum_le n f g : (forall i, (i < n)%nat -> f i <= g i) -> rsum n f <= rsum n g.
Proof. induction n as [|n IH]; intros H; cbn [rsum]; [lra|]. specialize (IH ltac:(intros; apply H; lia)). specialize (H n ltac:(lia)). lra. Qed.
Lemma rsum_const n c : rsum n (fun _ => c) = INR n * c.
Proof. induction n as [|n IH]; [cbn; ring|]. rewrite S_INR. cbn [rsum]. rewrite IH. ring. Qed.
Definition mass (n : nat) (M : matr) : R := rsum n (fun a => rsum n (fun b => Rabs (M a b))).
Lemma mass_nonneg n M : 0 <= mass n M.
Proof. apply rsum_nonneg. intros. apply rsum_nonneg. intros. apply Rabs_pos. Qed.
Lemma mass_entry n M a b : (a < n)%nat -> (b < n)%nat -> Rabs (M a b) <= mass n M.
Proof.
  intros A B. eapply Rle_trans; [|apply (rsum_one n (fun a => rsum n (fun b => Rabs (M a b))) a A)].
  - apply (rsum_one n (fun b => Rabs (M a b)) b B). intros. apply Rabs_pos.
  - intros. apply rsum_nonneg. intros. apply Rabs_pos.
Qed.
Definition triple (n : nat) (X Y Z : matr) : matr := fun a b => rsum n (fun c => rsum n (fun d => X a c * Y c d * Z d b)).
Lemma triple_bound n X Y Z a b x z : (a < n)%nat -> (b < n)%nat -> (forall c, (c < n)%nat -> Rabs (X a c) <= x) -> (forall d, (d < n)%nat -> Rabs (Z d b) <= z) ->
  Rabs (triple n X Y Z a b) <= x * mass n Y * z.
Proof.
  intros A B HX HZ. unfold triple. eapply Rle_trans; [apply rsum_abs|]. unfold mass. rewrite Rmult_assoc, <- rsum_scal_r, <- rsum_scal. apply rsum_le. intros c C.
  eapply Rle_trans; [apply rsum_abs|]. rewrite <- rsum_scal_r, <- rsum_scal. apply rsum_le. intros d Dd. rewrite !Rabs_mult.
  specialize (HX c C). specialize (HZ d Dd). pose proof (Rabs_pos (X a c)). pose proof (Rabs_pos (Y c d)). pose proof (Rabs_pos (Z d b)).
  rewrite Rmult_assoc. apply Rmult_le_compat; try assumption; [nra|]. apply Rmult_le_compat_l; assumption.
Qed.
Section Inverse.
Variables (n : nat) (B0 C : matr) (Bt Nt : R -> matr).
Hypothesis BT : forall t a b, Bt t a b = B0 a b + t * C a b.
Hypothesis LI : locally 0 (fun t => inverse_of n (Bt t) (Nt t)).
Lemma resolvent t : inverse_of n (Bt t) (Nt t) -> forall a b, (a < n)%nat -> (b < n)%nat -> Nt t a b = Nt 0 a b - t * triple n (Nt t) C (Nt 0) a b.
Proof.
  intros IT a b A Bb. pose proof (locally_singleton _ _ LI) as I0. cbv beta in I0.
  assert (T : rsum n (fun d => rsum n (fun c => Nt t a c * Bt t c d) * Nt 0 d b) =
              rsum n (fun c => Nt t a c * rsum n (fun d => B0 c d * Nt 0 d b)) + t * triple n (Nt t) C (Nt 0) a b).
  { rewrite (rsum_ext n _ (fun d => rsum n (fun c => Nt t a c * Bt t c d * Nt 0 d b))) by (intros; now rewrite rsum_scal_r). rewrite rsum_swap.
    unfold triple. rewrite <- rsum_scal, <- rsum_plus. apply rsum_ext. intros c _. rewrite <- !rsum_scal, <- rsum_plus. apply rsum_ext. intros d _. rewrite BT. ring. }
  rewrite (rsum_ext n _ (fun d => (if Nat.eqb a d then 1 else 0) * Nt 0 d b)) in T.
  2:{ intros d Dd. f_equal. rewrite <- (proj2 (IT a d A Dd)), sum_to_rsum. reflexivity. }
  rewrite (rsum_ext n (fun c => Nt t a c * _) (fun c => Nt t a c * (if Nat.eqb c b then 1 else 0))) in T.
  2:{ intros c Hc. f_equal. rewrite <- (proj1 (I0 c b Hc Bb)), sum_to_rsum. apply rsum_ext. intros d _. rewrite BT. ring. }
  rewrite (delta_sum n a (fun d => Nt 0 d b)), (delta_sum' n b (fun c => Nt t a c)) in T by assumption. lra.
Qed.
Theorem inverse_derive a b : (a < n)%nat -> (b < n)%nat -> is_derive (fun t => Nt t a b) 0 (- triple n (Nt 0) C (Nt 0) a b).
Proof.
  intros A Bb. destruct LI as [[e EP] HE]. set (m0 := mass n (Nt 0)). set (c := mass n C). pose proof (mass_nonneg n (Nt 0)) as M0. fold m0 in M0.
  pose proof (mass_nonneg n C) as C0. fold c in C0. set (q := INR n * INR n * (c * m0)).
  assert (Q0 : 0 <= q) by (unfold q; apply Rmult_le_pos; [apply Rmult_le_pos; apply pos_INR|nra]).
  set (d0 := Rmin e (/ (2 * q + 1))). assert (D0 : 0 < d0) by (unfold d0; apply Rmin_pos; [exact EP|apply Rinv_0_lt_compat; lra]).
  apply (derive_quadratic _ _ (2 * m0 * c * m0 * c * m0) d0 D0). intros t HT.
  assert (IT : inverse_of n (Bt t) (Nt t)). { apply HE. cbn. unfold ball; cbn; unfold AbsRing_ball, abs, minus, plus, opp; cbn. rewrite Ropp_0, Rplus_0_r. eapply Rlt_le_trans; [exact HT|apply Rmin_l]. }
  pose proof (resolvent t IT) as R. set (m := mass n (Nt t)). pose proof (mass_nonneg n (Nt t)) as MT. fold m in MT.
  assert (TB : forall i j, (i < n)%nat -> (j < n)%nat -> Rabs (triple n (Nt t) C (Nt 0) i j) <= m * c * m0).
  { intros i j I J. apply triple_bound; try assumption; intros; now apply mass_entry. }
  assert (MB : m <= 2 * m0).
  { assert (LE : m <= m0 + Rabs t * (INR n * (INR n * (m * c * m0)))).
    { unfold m at 1, m0 at 1, mass. rewrite <- (rsum_const n (m * c * m0)), <- (rsum_const n (rsum n _)), <- rsum_scal, <- rsum_plus. apply rsum_le. intros i I.
      rewrite <- rsum_scal, <- rsum_plus. apply rsum_le. intros j J. rewrite (R i j I J). eapply Rle_trans; [apply Rabs_triang|]. apply Rplus_le_compat_l.
      rewrite Rabs_Ropp, Rabs_mult. apply Rmult_le_compat_l; [apply Rabs_pos|now apply TB]. }
    assert (TQ : Rabs t * q <= / 2).
    { assert (T2 : Rabs t < / (2 * q + 1)) by (eapply Rlt_le_trans; [exact HT|apply Rmin_r]).
      apply (Rmult_lt_compat_r (2 * q + 1)) in T2; [|lra]. rewrite Rinv_l in T2 by lra. pose proof (Rabs_pos t). nra. }
    replace (Rabs t * (INR n * (INR n * (m * c * m0)))) with (Rabs t * q * m) in LE by (unfold q; ring). nra. }
  assert (DB : forall i j, (i < n)%nat -> (j < n)%nat -> Rabs (Nt 0 i j - Nt t i j) <= Rabs t * (2 * m0 * c * m0)).
  { intros i j I J. rewrite (R i j I J). replace (Nt 0 i j - (Nt 0 i j - t * triple n (Nt t) C (Nt 0) i j)) with (t * triple n (Nt t) C (Nt 0) i j) by ring.
    rewrite Rabs_mult. apply Rmult_le_compat_l; [apply Rabs_pos|]. eapply Rle_trans; [now apply TB|]. apply Rmult_le_compat_r; [exact M0|]. apply Rmult_le_compat_r; assumption. }
  rewrite (R a b A Bb).
  replace (Nt 0 a b - t * triple n (Nt t) C (Nt 0) a b - Nt 0 a b - t * - triple n (Nt 0) C (Nt 0) a b)
    with (t * triple n (fun i j => Nt 0 i j - Nt t i j) C (Nt 0) a b).
  2:{ unfold triple. replace (rsum n (fun c0 => rsum n (fun d => (Nt 0 a c0 - Nt t a c0) * C c0 d * Nt 0 d b)))
        with (rsum n (fun c0 => rsum n (fun d => Nt 0 a c0 * C c0 d * Nt 0 d b)) - rsum n (fun c0 => rsum n (fun d => Nt t a c0 * C c0 d * Nt 0 d b))); [ring|].
      rewrite <- rsum_minus. apply rsum_ext. intros i _. rewrite <- rsum_minus. apply rsum_ext. intros j _. ring. }
  rewrite Rabs_mult. replace (2 * m0 * c * m0 * c * m0 * (t * t)) with (Rabs t * (Rabs t * (2 * m0 * c * m0) * c * m0)).
  - apply Rmult_le_compat_l; [apply Rabs_pos|]. apply triple_bound; try assumption; [intros; now apply DB|intros; now apply mass_entry].
  - replace (t * t) with (Rabs t * Rabs t) by (rewrite <- Rabs_mult; apply Rabs_right; nra). ring.
Qed.
End Inverse.

(** ---- the matrices of the code in terms of contrasts *)
Lemma Cmat_coef k i j : Cmat k i j = coef k (other k j) i.
Proof.
  unfold Cmat, coef, delta. fold (other k j). pose proof (other_ne k j). destruct (Nat.eqb_spec i k) as [->|N].
  - destruct (Nat.eqb_spec k (other k j)); [congruence|]. unfold Rdiv. ring.
  - destruct (Nat.eqb i (other k j)); unfold Rdiv; ring.
Qed.
Section Closed.
Variables (D k : nat) (P : vect).
Hypothesis KD : (k < D)%nat.
Notation ph a := (contrast k (other k a)).
Notation n := (D - 1)%nat.
Lemma Rmat_row a f : (a < n)%nat -> rsum D (fun i => Rmat k P i a * f i) = sqrt (P a) * ph a f.
Proof.
  intros A. unfold Rmat. rewrite (rsum_ext D _ (fun i => sqrt (P a) * (coef k (other k a) i * f i))) by (intros; rewrite Cmat_coef; ring).
  rewrite rsum_scal, contrast_coef; [reflexivity|exact KD|now apply other_lt].
Qed.
Lemma rvec_row MP f : rsum D (fun i => rvec D k MP i * f i) = rsum n (fun a => MP a * ph a f).
Proof.
  unfold rvec. rewrite (rsum_ext D _ (fun i => rsum n (fun a => MP a * (coef k (other k a) i * f i)))).
  - rewrite rsum_swap. apply rsum_ext. intros a A. rewrite rsum_scal, contrast_coef; [reflexivity|exact KD|now apply other_lt].
  - intros i _. rewrite <- rsum_scal_r. apply rsum_ext. intros a _. rewrite Cmat_coef. ring.
Qed.
(** R' S R *)
Definition squeezed (S : matr) : matr := fun a b => rsum D (fun i => rsum D (fun j => Rmat k P i a * S i j * Rmat k P j b)).
Lemma squeezed_contrast S a b : (a < n)%nat -> (b < n)%nat -> squeezed S a b = sqrt (P a) * ph a (fun i => sqrt (P b) * ph b (S i)).
Proof.
  intros A B. unfold squeezed. rewrite <- Rmat_row by exact A. apply rsum_ext. intros i _. rewrite <- Rmat_row, <- rsum_scal by exact B. apply rsum_ext. intros. ring.
Qed.
Lemma squeezed_sym S : symmetric S -> symmetric (squeezed S).
Proof. intros H a b. unfold squeezed. rewrite rsum_swap. apply rsum_ext. intros i _. apply rsum_ext. intros j _. rewrite (H j i). ring. Qed.
Lemma IRSR_squeezed S a b : IRSR D k P S a b = (if Nat.eqb a b then 1 else 0) + squeezed S a b.
Proof. reflexivity. Qed.
Lemma IRSR_sym S : symmetric S -> symmetric (IRSR D k P S).
Proof. intros H a b. rewrite !IRSR_squeezed, (squeezed_sym S H a b), (Nat.eqb_sym a b). reflexivity. Qed.
Definition A0 (N : matr) : matr := fun i j => rsum n (fun a => rsum n (fun b => Rmat k P i a * N a b * Rmat k P j b)).
Lemma Amat_A0 N : (forall a b, (a < n)%nat -> (b < n)%nat -> N a b = N b a) -> forall i j, Amat D k P N i j = A0 N i j.
Proof.
  intros SN i j. unfold Amat. fold (A0 N j i) (A0 N i j). assert (E : A0 N j i = A0 N i j); [|rewrite E; field].
  unfold A0. rewrite rsum_swap. apply rsum_ext. intros a A. apply rsum_ext. intros b B. rewrite (SN b a B A). ring.
Qed.
(** A f, as a functional *)
Definition hvec (N : matr) (f : vect) : vect := fun a => rsum n (fun b => N a b * (sqrt (P b) * ph b f)).
Lemma A0_vec N f i : mvec D (A0 N) f i = rsum n (fun a => Rmat k P i a * hvec N f a).
Proof.
  unfold mvec, dot, A0. rewrite (rsum_ext D _ (fun j => rsum n (fun a => rsum n (fun b => Rmat k P i a * N a b * (Rmat k P j b * f j))))).
  - rewrite rsum_swap. apply rsum_ext. intros a _. rewrite rsum_swap. unfold hvec. rewrite <- rsum_scal. apply rsum_ext. intros b B. rewrite rsum_scal, Rmat_row by exact B. ring.
  - intros j _. rewrite <- rsum_scal_r. apply rsum_ext. intros a _. rewrite <- rsum_scal_r. apply rsum_ext. intros. ring.
Qed.
Lemma A0_functional N F f : rsum D (fun i => F i * mvec D (A0 N) f i) = rsum n (fun a => sqrt (P a) * ph a F * hvec N f a).
Proof.
  rewrite (rsum_ext D _ (fun i => rsum n (fun a => (Rmat k P i a * F i) * hvec N f a))).
  - rewrite rsum_swap. apply rsum_ext. intros a A. rewrite rsum_scal_r, Rmat_row by exact A. reflexivity.
  - intros i _. rewrite A0_vec, <- rsum_scal. apply rsum_ext. intros. ring.
Qed.
Section Solved.
Variables (Sigma N : matr).
Hypothesis SS : symmetric Sigma.
Hypothesis PP : forall a, 0 <= P a.
Hypothesis IN : inverse_of n (IRSR D k P Sigma) N.
Lemma N_sym a b : (a < n)%nat -> (b < n)%nat -> N a b = N b a.
Proof. apply (inverse_sym n _ N (IRSR_sym Sigma SS) IN). Qed.
Let z (f : vect) : vect := fun i => rsum D (fun j => Sigma i j * mvec D (A0 N) f j).
Lemma z_eq f i : z f i = rsum n (fun a => sqrt (P a) * ph a (Sigma i) * hvec N f a).
Proof. apply A0_functional. Qed.
Lemma h_eq f a : (a < n)%nat -> hvec N f a + sqrt (P a) * ph a (z f) = sqrt (P a) * ph a f.
Proof.
  intros A.
  assert (T : rsum n (fun b => IRSR D k P Sigma a b * hvec N f b) = sqrt (P a) * ph a f).
  { unfold hvec. rewrite (rsum_ext n _ (fun b => rsum n (fun c => IRSR D k P Sigma a b * N b c * (sqrt (P c) * ph c f)))) by (intros; rewrite <- rsum_scal; apply rsum_ext; intros; ring).
    rewrite rsum_swap. rewrite (rsum_ext n _ (fun c => (if Nat.eqb a c then 1 else 0) * (sqrt (P c) * ph c f))).
    - now rewrite (delta_sum n a (fun c => sqrt (P c) * ph c f)).
    - intros c Cc. rewrite rsum_scal_r. f_equal. rewrite <- (proj1 (IN a c A Cc)), sum_to_rsum. reflexivity. }
  rewrite <- T. rewrite (rsum_ext n (fun b => IRSR D k P Sigma a b * hvec N f b) (fun b => (if Nat.eqb a b then 1 else 0) * hvec N f b + sqrt (P a) * (sqrt (P b) * ph a (fun i => ph b (Sigma i)) * hvec N f b))).
  - rewrite rsum_plus, delta_sum, rsum_scal by exact A. f_equal. f_equal.
    rewrite (contrast_ext k (other k a) (z f) (fun i => rsum n (fun b => (sqrt (P b) * hvec N f b) * ph b (Sigma i)))) by (rewrite z_eq; apply rsum_ext; intros; ring).
    rewrite contrast_sum. apply rsum_ext. intros b _. rewrite contrast_scal. ring.
  - intros b B. rewrite IRSR_squeezed, squeezed_contrast, contrast_scal by assumption. ring.
Qed.
Lemma solves f i : (f i - z f i) + rsum n (fun a => P a * (ph a (Sigma i) * ph a (fun m => f m - z f m))) = f i.
Proof.
  rewrite z_eq. rewrite (rsum_ext n (fun a => P a * _) (fun a => sqrt (P a) * ph a (Sigma i) * hvec N f a)); [ring|].
  intros a A. rewrite (contrast_ext k (other k a) (fun m => f m - z f m) (fun m => 1 * f m + (-1) * z f m)) by ring. rewrite contrast_lin.
  pose proof (h_eq f a A) as E. pose proof (sqrt_sqrt (P a) (PP a)) as Q. rewrite <- Q at 1.
  replace (hvec N f a) with (sqrt (P a) * ph a f - sqrt (P a) * ph a (z f)) by lra. ring.
Qed.
Hypothesis PD : positive_definite D Sigma.
Lemma unique x : (forall i, x i + rsum n (fun a => P a * (ph a (Sigma i) * ph a x)) = 0) -> forall i, x i = 0.
Proof.
  intros H. set (w := fun i => rsum n (fun a => P a * ph a x * coef k (other k a) i)).
  assert (W : forall f, rsum D (fun i => w i * f i) = rsum n (fun a => P a * ph a x * ph a f)).
  { intros f. unfold w. rewrite (rsum_ext D _ (fun i => rsum n (fun a => (P a * ph a x) * (coef k (other k a) i * f i)))).
    - rewrite rsum_swap. apply rsum_ext. intros a A. rewrite rsum_scal, contrast_coef; [reflexivity|exact KD|now apply other_lt].
    - intros i _. rewrite <- rsum_scal_r. apply rsum_ext. intros. ring. }
  assert (SW : forall i, rsum D (fun j => w j * Sigma i j) = - x i).
  { intros i. rewrite W. specialize (H i). rewrite (rsum_ext n _ (fun a => P a * (ph a (Sigma i) * ph a x))) by (intros; ring). lra. }
  destruct (some_nonzero D w) as [E|Z].
  - exfalso. pose proof (PD w E) as POS. rewrite sum_to_rsum, (rsum_ext D _ (fun i => w i * - x i)) in POS.
    + rewrite W in POS. rewrite (rsum_ext n _ (fun a => (-1) * (P a * (ph a x * ph a x)))) in POS.
      * rewrite rsum_scal in POS. pose proof (rsum_nonneg n (fun a => P a * (ph a x * ph a x)) ltac:(intros i _; pose proof (PP i); nra)). lra.
      * intros a _. rewrite (contrast_ext k (other k a) (fun i => - x i) (fun i => (-1) * x i)) by ring. rewrite contrast_scal. ring.
    + intros i _. rewrite sum_to_rsum, <- SW, <- rsum_scal. apply rsum_ext. intros. ring.
  - intros i. specialize (SW i). rewrite (rsum_ext D _ (fun _ => 0)), rsum_zero in SW; [lra|]. intros j J. rewrite Z by exact J. ring.
Qed.
Lemma solved_by f y : (forall i, y i + rsum n (fun a => P a * (ph a (Sigma i) * ph a y)) = f i) -> forall i, y i = f i - z f i.
Proof.
  intros H i. enough (E : y i - (f i - z f i) = 0) by lra. apply (unique (fun i => y i - (f i - z f i))). intros j. specialize (H j). pose proof (solves f j) as G.
  rewrite (rsum_ext n _ (fun a => P a * (ph a (Sigma j) * ph a y) - P a * (ph a (Sigma j) * ph a (fun m => f m - z f m)))).
  - rewrite rsum_minus. lra.
  - intros a _. rewrite (contrast_ext k (other k a) (fun i => y i - (f i - z f i)) (fun i => 1 * y i + (-1) * (f i - z f i))) by ring. rewrite contrast_lin. ring.
Qed.
Lemma z_Amat f i : z f i = rsum D (fun j => Sigma i j * mvec D (Amat D k P N) f j).
Proof. unfold z. apply rsum_ext. intros j _. f_equal. unfold mvec, dot. apply rsum_ext. intros m _. now rewrite Amat_A0 by exact N_sym. Qed.
End Solved.
End Closed.

(** The mean and covariance of the Gaussian times the messages, from the returned derivatives. *)
Theorem marginal_identities D k Mu Sigma P MP M V N : (k < D)%nat -> symmetric Sigma -> positive_definite D Sigma -> (forall a, 0 <= P a) ->
  carries_messages D k Mu Sigma P MP M V -> inverse_of (D - 1) (IRSR D k P Sigma) N ->
  let r := rvec D k MP in let A := Amat D k P N in
  (forall i, M i - Mu i = sum_to D (fun j => Sigma i j * dlogZdMu D Mu Sigma r A j)) /\
  (forall i j, V i j - Sigma i j = sum_to D (fun a => sum_to D (fun b => Sigma i a * dlogZdMudMu A a b * Sigma b j))).
Proof.
  intros K SS PD PP CM IN r A. apply inv_spec in CM. destruct CM as [H1 H2].
  assert (BV : forall i, bvec D Mu Sigma r i = Mu i + rsum (D - 1) (fun a => MP a * contrast k (other k a) (Sigma i))).
  { intros i. unfold bvec, mvec, dot. f_equal. rewrite <- (rvec_row D k K MP (Sigma i)). apply rsum_ext. intros. unfold r. ring. }
  split.
  - intros i. pose proof (solved_by D k P K Sigma N PP IN PD (bvec D Mu Sigma r) M ltac:(intros; rewrite BV; apply H2) i) as E.
    cbv beta in E. rewrite (z_Amat D k P Sigma N SS IN (bvec D Mu Sigma r) i) in E. fold A in E. rewrite E. rewrite sum_to_rsum. unfold dlogZdMu.
    rewrite (rsum_ext D (fun j => Sigma i j * (r j - _ j)) (fun j => Sigma i j * r j - Sigma i j * mvec D A (bvec D Mu Sigma r) j)) by (intros; ring). rewrite rsum_minus. unfold bvec at 1, mvec at 1, dot. ring.
  - intros i j. pose proof (solved_by D k P K Sigma N PP IN PD (fun m => Sigma m j) (fun m => V m j) ltac:(intros; apply H1) i) as E.
    cbv beta in E. rewrite (z_Amat D k P Sigma N SS IN (fun m => Sigma m j) i) in E. fold A in E. rewrite E, sum_to_rsum.
    replace (Sigma i j - _ - Sigma i j) with ((-1) * rsum D (fun j0 => Sigma i j0 * mvec D A (fun m => Sigma m j) j0)) by ring. rewrite <- rsum_scal.
    apply rsum_ext. intros a _. rewrite sum_to_rsum. unfold mvec, dot, dlogZdMudMu. rewrite <- !rsum_scal. apply rsum_ext. intros. ring.
Qed.
Theorem returned_derivatives solve ldet D k Mu Sigma w : (1 < D)%nat -> (k < D)%nat -> symmetric Sigma -> positive_definite D Sigma ->
  sweeps 50 D k 1 (start Mu Sigma) = Some w -> inverse_of (D - 1) (IRSR D k (sw_P w) Sigma) (solve (IRSR D k (sw_P w) Sigma)) ->
  let '(logZ, dMu, dMuMu, dSigma) := min_faktor solve ldet D Mu Sigma k in
  (exists z, logZ = Finite z) /\
  (forall i, sw_M w i - Mu i = sum_to D (fun j => Sigma i j * dMu j)) /\
  (forall i j, sw_V w i j - Sigma i j = sum_to D (fun a => sum_to D (fun b => Sigma i a * dMuMu a b * Sigma b j))).
Proof.
  intros D1 K SS PD E IN. pose proof (marginals 50 D k Mu Sigma w K SS PD E) as CM. destruct (min_faktor_messages 50 D k Mu Sigma w SS E) as [PP _].
  pose proof (marginal_identities D k Mu Sigma _ _ _ _ _ K SS PD PP CM IN) as [H1 H2]. unfold min_faktor.
  destruct (Nat.leb_spec D 1); [lia|]. rewrite E. split; [eexists; reflexivity|]. split; assumption.
Qed.

(** ---- the derivative of log Z along the covariance *)
Lemma moved_zero V E : moved V E 0 = V.
Proof. apply FunctionalExtensionality.functional_extensionality; intros i. apply FunctionalExtensionality.functional_extensionality; intros j. unfold moved. ring. Qed.
Lemma d_moved V E i j : is_derive (fun t => moved V E t i j) 0 (E i j).
Proof. unfold moved. eapply d_eq; [apply d_plus; [apply d_const|apply d_mult; [apply d_id|apply d_const]]|]. cbv beta. ring. Qed.
Section CovDerivative.
Variables (D k : nat) (P MP Mu : vect) (Sigma E : matr) (solve : matr -> matr) (ldet : matr -> R).
Hypothesis KD : (k < D)%nat.
Hypothesis SS : symmetric Sigma.
Hypothesis SE : symmetric E.
Notation n := (D - 1)%nat.
Notation Bt t := (IRSR D k P (moved Sigma E t)).
Hypothesis LI : locally 0 (fun t => inverse_of n (Bt t) (solve (Bt t))).
Let N := solve (IRSR D k P Sigma).
Hypothesis JAC : jacobi n ldet (IRSR D k P Sigma) N.
Let r := rvec D k MP.
Let A := Amat D k P N.
Let C := squeezed D k P E.
Let b := bvec D Mu Sigma r.
Let Ab := mvec D A b.
Lemma Bt_line t a c : Bt t a c = IRSR D k P Sigma a c + t * C a c.
Proof.
  rewrite !IRSR_squeezed, Rplus_assoc. f_equal. unfold squeezed, C, squeezed. rewrite <- rsum_scal, <- rsum_plus. apply rsum_ext. intros i _. rewrite <- rsum_scal, <- rsum_plus.
  apply rsum_ext. intros j _. unfold moved. ring.
Qed.
Lemma N_inv : inverse_of n (IRSR D k P Sigma) N.
Proof. pose proof (locally_singleton _ _ LI) as H. cbv beta in H. rewrite moved_zero in H. exact H. Qed.
Lemma Nsym : forall a c, (a < n)%nat -> (c < n)%nat -> N a c = N c a.
Proof. exact (N_sym D k P Sigma N SS N_inv). Qed.
Lemma N_derive a c : (a < n)%nat -> (c < n)%nat -> is_derive (fun t => solve (Bt t) a c) 0 (- triple n N C N a c).
Proof.
  intros I J. pose proof (inverse_derive n (IRSR D k P Sigma) C (fun t => Bt t) (fun t => solve (Bt t)) Bt_line LI a c I J) as H. cbv beta in H. rewrite moved_zero in H. exact H.
Qed.
Let N' : matr := fun a c => - triple n N C N a c.
Lemma A_derive i j : is_derive (fun t => Amat D k P (solve (Bt t)) i j) 0 (Amat D k P N' i j).
Proof.
  assert (Q : forall i j, is_derive (fun t => rsum n (fun a => rsum n (fun c => Rmat k P i a * solve (Bt t) a c * Rmat k P j c))) 0
                                    (rsum n (fun a => rsum n (fun c => Rmat k P i a * N' a c * Rmat k P j c)))).
  { intros i' j'. apply d_rsum. intros a I. apply d_rsum. intros c J. eapply d_eq; [apply d_mult; [apply d_scal; now apply N_derive|apply d_const]|]. cbv beta. unfold N'. ring. }
  unfold Amat. apply d_scal. apply d_plus; apply Q.
Qed.
Lemma b_moves i : is_derive (fun t => bvec D Mu (moved Sigma E t) r i) 0 (mvec D E r i).
Proof.
  unfold bvec, mvec, dot. eapply d_eq; [apply d_plus; [apply d_const|]|].
  - apply (d_rsum D (fun j t => moved Sigma E t i j * r j) (fun j => E i j * r j)). intros j _. eapply d_eq; [apply d_mult; [apply d_moved|apply d_const]|]. cbv beta. ring.
  - cbv beta. ring.
Qed.
Lemma quad_A0 X x : dot D x (mvec D (Amat D k P X) x) = dot D x (mvec D (A0 D k P X) x).
Proof.
  unfold dot, mvec, dot. rewrite (rsum_ext D _ (fun i => / 2 * rsum D (fun j => A0 D k P X j i * (x i * x j)) + / 2 * rsum D (fun j => A0 D k P X i j * (x i * x j)))).
  - rewrite rsum_plus, !rsum_scal. rewrite (rsum_swap D D (fun i j => A0 D k P X j i * (x i * x j))).
    rewrite (rsum_ext D (fun j => rsum D (fun i => A0 D k P X j i * (x i * x j))) (fun i => rsum D (fun j => A0 D k P X i j * (x i * x j)))) by (intros; apply rsum_ext; intros; ring).
    rewrite (rsum_ext D (fun i => x i * _) (fun i => rsum D (fun j => A0 D k P X i j * (x i * x j)))) by (intros; rewrite <- rsum_scal; apply rsum_ext; intros; ring). field.
  - intros i _. rewrite <- !rsum_scal, <- rsum_plus. apply rsum_ext. intros j _. unfold Amat. fold (A0 D k P X j i) (A0 D k P X i j). ring.
Qed.
Lemma quad_derivative : dot D b (mvec D (Amat D k P N') b) = - dot D Ab (mvec D E Ab).
Proof.
  rewrite quad_A0. unfold dot at 1. rewrite A0_functional by exact KD. set (h := hvec D k P N b).
  set (g := fun a => sqrt (P a) * contrast k (other k a) b).
  assert (HG : forall d, (d < n)%nat -> rsum n (fun a => g a * N a d) = h d).
  { intros d Hd. unfold h, hvec. apply rsum_ext. intros a I. unfold g. rewrite (Nsym a d I Hd). ring. }
  assert (L : rsum n (fun a => sqrt (P a) * contrast k (other k a) b * hvec D k P N' b a) = - rsum n (fun a => rsum n (fun c => h a * C a c * h c))).
  { rewrite (rsum_ext n _ (fun a => (-1) * rsum n (fun c => rsum n (fun d => g a * N a d * rsum n (fun e => C d e * N e c * g c))))).
    - rewrite rsum_scal. replace (- rsum n (fun a => rsum n (fun c => h a * C a c * h c))) with ((-1) * rsum n (fun a => rsum n (fun c => h a * C a c * h c))) by ring. f_equal.
      transitivity (rsum n (fun d => rsum n (fun c => h d * rsum n (fun e => C d e * N e c * g c)))).
      + rewrite (rsum_ext n _ (fun a => rsum n (fun d => rsum n (fun c => g a * N a d * rsum n (fun e => C d e * N e c * g c))))) by (intros; apply rsum_swap).
        rewrite rsum_swap. apply rsum_ext. intros d Hd. rewrite rsum_swap. apply rsum_ext. intros c _. rewrite rsum_scal_r, HG by exact Hd. reflexivity.
      + apply rsum_ext. intros d _. rewrite (rsum_ext n _ (fun c => rsum n (fun e => h d * C d e * (N e c * g c)))) by (intros; rewrite <- rsum_scal; apply rsum_ext; intros; ring).
        rewrite rsum_swap. apply rsum_ext. intros e _. rewrite rsum_scal. f_equal.
    - intros a I. unfold hvec, N', triple. fold (g a). rewrite <- !rsum_scal. apply rsum_ext. intros c _.
      replace (g a * (- rsum n (fun c0 => rsum n (fun d => N a c0 * C c0 d * N d c)) * (sqrt (P c) * contrast k (other k c) b)))
        with ((-1) * (rsum n (fun c0 => rsum n (fun d => N a c0 * C c0 d * N d c)) * (g a * g c))) by (unfold g; ring). f_equal.
      rewrite <- rsum_scal_r. apply rsum_ext. intros d _. rewrite <- rsum_scal_r, <- rsum_scal. apply rsum_ext. intros. ring. }
  rewrite L. f_equal. unfold dot. symmetry.
  assert (AB : forall i, Ab i = rsum n (fun a => Rmat k P i a * h a)).
  { intros i. unfold Ab, A, h. rewrite <- (A0_vec D k P KD N b i). unfold mvec, dot. apply rsum_ext. intros j _. now rewrite Amat_A0 by exact Nsym. }
  assert (EA : forall i, mvec D E Ab i = rsum n (fun c => rsum D (fun j => E i j * Rmat k P j c) * h c)).
  { intros i. unfold mvec, dot. rewrite (rsum_ext D _ (fun j => rsum n (fun c => E i j * Rmat k P j c * h c))) by (intros; rewrite AB, <- rsum_scal; apply rsum_ext; intros; ring).
    rewrite rsum_swap. apply rsum_ext. intros c _. now rewrite rsum_scal_r. }
  rewrite (rsum_ext D _ (fun i => rsum n (fun a => rsum n (fun c => h a * (Rmat k P i a * rsum D (fun j => E i j * Rmat k P j c)) * h c)))).
  - rewrite rsum_swap. apply rsum_ext. intros a _. rewrite rsum_swap. apply rsum_ext. intros c _. rewrite rsum_scal_r, rsum_scal. unfold C, squeezed. f_equal. f_equal.
    apply rsum_ext. intros i _. rewrite <- rsum_scal. apply rsum_ext. intros. ring.
  - intros i _. rewrite AB, EA, <- rsum_scal_r. apply rsum_ext. intros a _. rewrite <- rsum_scal. apply rsum_ext. intros. ring.
Qed.
Lemma trace_derivative : sum_to n (fun a => sum_to n (fun c => N a c * C c a)) = rsum D (fun i => rsum D (fun j => A i j * E i j)).
Proof.
  rewrite sum_to_rsum. rewrite (rsum_ext n _ (fun a => rsum n (fun c => N a c * C a c))).
  2:{ intros a _. rewrite sum_to_rsum. apply rsum_ext. intros c _. f_equal. apply squeezed_sym. exact SE. }
  rewrite (rsum_ext D _ (fun i => rsum D (fun j => rsum n (fun a => rsum n (fun c => N a c * (Rmat k P i a * E i j * Rmat k P j c)))))).
  2:{ intros i _. apply rsum_ext. intros j _. unfold A. rewrite Amat_A0 by exact Nsym. unfold A0. rewrite <- rsum_scal_r. apply rsum_ext. intros a _. rewrite <- rsum_scal_r. apply rsum_ext. intros. ring. }
  symmetry. rewrite (rsum_ext D _ (fun i => rsum n (fun a => rsum D (fun j => rsum n (fun c => N a c * (Rmat k P i a * E i j * Rmat k P j c)))))) by (intros; apply rsum_swap).
  rewrite rsum_swap. apply rsum_ext. intros a _. rewrite (rsum_ext D _ (fun i => rsum n (fun c => rsum D (fun j => N a c * (Rmat k P i a * E i j * Rmat k P j c))))) by (intros; apply rsum_swap).
  rewrite rsum_swap. apply rsum_ext. intros c _. unfold C, squeezed. rewrite <- rsum_scal. apply rsum_ext. intros i _. now rewrite rsum_scal.
Qed.
Theorem cov_derivative s mp :
  is_derive (fun t => logZ D Mu (moved Sigma E t) r (Amat D k P (solve (Bt t))) (ldet (Bt t)) s mp) 0
            (ldot (packed D (halved (dlogZdSigma_full D Mu Sigma r A))) (masked D E)).
Proof.
  rewrite (pairing D _ E SE).
  assert (B0 : forall i, bvec D Mu (moved Sigma E 0) r i = b i) by (intros; now rewrite moved_zero).
  assert (D1 : is_derive (fun t => dot D r (mvec D (moved Sigma E t) r)) 0 (dot D r (mvec D E r))).
  { unfold dot at 1 2. apply d_rsum. intros i _. apply d_scal. unfold mvec, dot. apply d_rsum. intros j _.
    eapply d_eq; [apply d_mult; [apply d_moved|apply d_const]|]. cbv beta. ring. }
  assert (D2 : is_derive (fun t => dot D (bvec D Mu (moved Sigma E t) r) (mvec D (Amat D k P (solve (Bt t))) (bvec D Mu (moved Sigma E t) r))) 0
                 (rsum D (fun i => mvec D E r i * Ab i + b i * rsum D (fun j => Amat D k P N' i j * b j + A i j * mvec D E r j)))).
  { unfold dot at 1. apply d_rsum. intros i _.
    assert (DA : is_derive (fun t => mvec D (Amat D k P (solve (Bt t))) (bvec D Mu (moved Sigma E t) r) i) 0 (rsum D (fun j => Amat D k P N' i j * b j + A i j * mvec D E r j))).
    { unfold mvec, dot at 1. apply d_rsum. intros j _. eapply d_eq; [apply d_mult; [apply A_derive|apply b_moves]|]. cbv beta. rewrite B0, !moved_zero. reflexivity. }
    eapply d_eq; [apply d_mult; [apply b_moves|exact DA]|]. cbv beta. rewrite B0, !moved_zero. reflexivity. }
  assert (D3 : is_derive (fun t => ldet (Bt t)) 0 (rsum D (fun i => rsum D (fun j => A i j * E i j)))).
  { rewrite <- trace_derivative. apply (JAC (fun t => Bt t) C). intros a c _ _. split; [now rewrite moved_zero|].
    eapply is_derive_ext; [intros t; symmetry; apply Bt_line|]. eapply d_eq; [apply d_plus; [apply d_const|apply d_mult; [apply d_id|apply d_const]]|]. cbv beta. ring. }
  unfold logZ. cbv zeta. eapply d_eq.
  - apply d_minus; [|apply d_const]. apply d_plus; [|apply d_const]. apply d_plus; [|apply d_const].
    apply d_scal. apply d_minus; [apply d_minus; [exact D1|exact D2]|exact D3].
  - pose proof quad_derivative as QD. unfold dot, mvec at 1 in QD. unfold dot in QD.
    assert (ASY : forall i j, A i j = A j i) by (apply Amat_sym).
    set (ErAb := rsum D (fun i => mvec D E r i * Ab i)).
    assert (BAE : rsum D (fun i => b i * rsum D (fun j => A i j * mvec D E r j)) = ErAb).
    { rewrite (rsum_ext D _ (fun i => rsum D (fun j => b i * A i j * mvec D E r j))) by (intros; rewrite <- rsum_scal; apply rsum_ext; intros; ring). rewrite rsum_swap.
      unfold ErAb. apply rsum_ext. intros j _. rewrite rsum_scal_r, Rmult_comm. f_equal. unfold Ab, mvec, dot. apply rsum_ext. intros i _. rewrite (ASY i j). ring. }
    rewrite (rsum_ext D (fun i => mvec D E r i * Ab i + b i * rsum D (fun j => Amat D k P N' i j * b j + A i j * mvec D E r j))
       (fun i => (mvec D E r i * Ab i + b i * rsum D (fun j => Amat D k P N' i j * b j)) + b i * rsum D (fun j => A i j * mvec D E r j))) by (intros; rewrite rsum_plus; ring).
    rewrite !rsum_plus, QD, BAE. fold ErAb.
    rewrite sum_to_rsum, (rsum_ext D (fun i => sum_to D _) (fun i => (-1) * rsum D (fun j => A i j * E i j) + (-2) * rsum D (fun j => r i * Ab j * E i j) + rsum D (fun j => r i * r j * E i j) + rsum D (fun j => Ab i * Ab j * E i j))).
    2:{ intros i _. rewrite sum_to_rsum, <- !rsum_scal, <- !rsum_plus. apply rsum_ext. intros j _. unfold dlogZdSigma_full. fold b. cbv zeta. fold Ab.
        replace (rsum D (fun i0 => b i0 * A i0 i)) with (Ab i) by (unfold Ab, mvec, dot; apply rsum_ext; intros m _; rewrite (ASY i m); ring). ring. }
    rewrite !rsum_plus, !rsum_scal.
    replace (rsum D (fun i => rsum D (fun j => r i * Ab j * E i j))) with ErAb.
    2:{ rewrite rsum_swap. unfold ErAb. apply rsum_ext. intros j _. unfold mvec, dot. rewrite <- rsum_scal_r. apply rsum_ext. intros i _. rewrite (SE i j). ring. }
    replace (rsum D (fun i => rsum D (fun j => r i * r j * E i j))) with (dot D r (mvec D E r)) by (unfold dot, mvec, dot; apply rsum_ext; intros; rewrite <- rsum_scal; apply rsum_ext; intros; ring).
    replace (rsum D (fun i => rsum D (fun j => Ab i * Ab j * E i j))) with (rsum D (fun i => Ab i * rsum D (fun i0 => E i i0 * Ab i0))) by (apply rsum_ext; intros; rewrite <- rsum_scal; apply rsum_ext; intros; ring).
    unfold mvec, dot. field.
Qed.
End CovDerivative.
