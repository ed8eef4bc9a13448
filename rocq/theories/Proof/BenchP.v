From Coq Require Import Reals List Lra Lia Machin.
From Verif.Model Require Import Bench.
From Verif.Spec Require Import BenchSpec.
Import ListNotations.
Local Open Scope R_scope.

Lemma sq_zero a : a ^ 2 = 0 -> a = 0.
Proof. intros H. nra. Qed.
Lemma rosenbrock_min : minimum_at (on_plane rosenbrock) anywhere 0 (fun p => p = (1, 1)).
Proof.
  split; [exists (1, 1); split; [exact I|reflexivity]|]. split.
  - intros [x y] _. unfold on_plane, rosenbrock; simpl fst; simpl snd. pose proof (pow2_ge_0 (y - x ^ 2)). pose proof (pow2_ge_0 (x - 1)). lra.
  - intros [x y] _. unfold on_plane, rosenbrock; simpl fst; simpl snd. split.
    + intros H. pose proof (pow2_ge_0 (y - x ^ 2)) as A. pose proof (pow2_ge_0 (x - 1)) as B.
      assert (C : (x - 1) ^ 2 = 0) by lra. assert (D : (y - x ^ 2) ^ 2 = 0) by lra. apply sq_zero in C, D. assert (x = 1) by lra. subst x. rewrite pow1 in D. assert (y = 1) by lra. subst y. reflexivity.
    + intros [= -> ->]. ring.
Qed.
Lemma powers_min : minimum_at (on_plane powers) anywhere 0 (fun p => p = (0, 0)).
Proof.
  split; [exists (0, 0); split; [exact I|reflexivity]|].
  assert (A : forall y, 0 <= Rabs y ^ 3) by (intros; apply pow_le, Rabs_pos).
  split.
  - intros [x y] _. unfold on_plane, powers; simpl fst; simpl snd. pose proof (pow2_ge_0 (Rabs x)). specialize (A y). lra.
  - intros [x y] _. unfold on_plane, powers; simpl fst; simpl snd. split.
    + intros H. pose proof (pow2_ge_0 (Rabs x)) as B. specialize (A y). assert (C : Rabs x ^ 2 = 0) by lra. assert (D : Rabs y ^ 3 = 0) by lra.
      apply sq_zero in C. f_equal; [destruct (Req_dec x 0) as [|N]; auto; apply Rabs_no_R0 in N; contradiction|].
      destruct (Req_dec y 0) as [|N]; auto. apply Rabs_no_R0 in N. exfalso. apply (pow_nonzero _ 3 N). exact D.
    + intros [= -> ->]. rewrite Rabs_R0. ring.
Qed.
Lemma goldstein_factors x y : goldstein x y =
  (1 + (x + y + 1) ^ 2 * (3 * (x + y) ^ 2 - 14 * (x + y) + 19)) * (3 + (2 * x - 3 * y - 3) ^ 2 * (3 * (2 * x - 3 * y) ^ 2 + 2 * (2 * x - 3 * y) + 3)).
Proof. unfold goldstein. ring. Qed.
Lemma goldstein_min : minimum_at (on_plane goldstein) anywhere 3 (fun p => p = (0, -1)).
Proof.
  split; [exists (0, -1); split; [exact I|reflexivity]|].
  assert (P1 : forall s, 0 < 3 * s ^ 2 - 14 * s + 19) by (intros s; pose proof (pow2_ge_0 (3 * s - 7)); nra).
  assert (P2 : forall d, 0 < 3 * d ^ 2 + 2 * d + 3) by (intros d; pose proof (pow2_ge_0 (3 * d + 1)); nra).
  assert (Q : forall x y, 0 <= (x + y + 1) ^ 2 * (3 * (x + y) ^ 2 - 14 * (x + y) + 19) /\ 0 <= (2 * x - 3 * y - 3) ^ 2 * (3 * (2 * x - 3 * y) ^ 2 + 2 * (2 * x - 3 * y) + 3)).
  { intros x y. split; apply Rmult_le_pos; try apply pow2_ge_0; apply Rlt_le; auto. }
  split.
  - intros [x y] _. unfold on_plane; simpl fst; simpl snd. rewrite goldstein_factors. destruct (Q x y) as [A B].
    set (a := (x + y + 1) ^ 2 * _) in *. set (b := (2 * x - 3 * y - 3) ^ 2 * _) in *. nra.
  - intros [x y] _. unfold on_plane; simpl fst; simpl snd. rewrite goldstein_factors. destruct (Q x y) as [A B]. split.
    + intros H. assert (A0 : (x + y + 1) ^ 2 * (3 * (x + y) ^ 2 - 14 * (x + y) + 19) = 0) by nra.
      assert (B0 : (2 * x - 3 * y - 3) ^ 2 * (3 * (2 * x - 3 * y) ^ 2 + 2 * (2 * x - 3 * y) + 3) = 0) by nra.
      specialize (P1 (x + y)). specialize (P2 (2 * x - 3 * y)).
      apply Rmult_integral in A0. apply Rmult_integral in B0. destruct A0 as [A0|A0]; [|lra]. destruct B0 as [B0|B0]; [|lra].
      apply sq_zero in A0, B0. f_equal; lra.
    + intros [= -> ->]. ring.
Qed.
(** ---- rows of any length *)
Lemma lsum_nonneg l : Forall (fun v => 0 <= v) l -> 0 <= lsum l.
Proof. induction 1; simpl; lra. Qed.
Lemma lsum_zero l : Forall (fun v => 0 <= v) l -> lsum l = 0 -> Forall (fun v => v = 0) l.
Proof. induction 1 as [|v l V L IH]; simpl; intros H; constructor; pose proof (lsum_nonneg l L); [lra|apply IH; lra]. Qed.
Lemma alpine1_min d : (forall x, 0 <= alpine1 x) /\ alpine1 (repeat 0 d) = 0.
Proof.
  split.
  - intros x. apply lsum_nonneg. apply Forall_forall. intros v I. apply in_map_iff in I. destruct I as (w & <- & _). apply Rabs_pos.
  - unfold alpine1. induction d as [|d IH]; [reflexivity|]. unfold lsum in *. cbn [repeat map fold_right]. rewrite IH. replace (0 * sin 0 + 1 / 10 * 0) with 0 by ring. rewrite Rabs_R0. ring.
Qed.
Lemma lsum_le (f : R -> R) x : (forall v, f v <= 1) -> lsum (map f x) <= INR (length x).
Proof. intros H. induction x as [|v x IH]; [simpl; lra|]. unfold lsum in *. cbn [map fold_right length]. rewrite S_INR. specialize (H v). lra. Qed.
Lemma ackley_min d : (0 < d)%nat -> minimum_at ackley (fun x => length x = d) 0 (fun x => x = repeat 0 d).
Proof.
  intros POS.
  assert (DP : 0 < INR d) by (apply lt_0_INR; exact POS).
  assert (SQ : forall x, 0 <= lsum (map (fun v => v ^ 2) x)).
  { intros x. apply lsum_nonneg. apply Forall_forall. intros v I. apply in_map_iff in I. destruct I as (w & <- & _). apply pow2_ge_0. }
  assert (CB : forall x, length x = d -> exp (lsum (map (fun v => cos (2 * PI * v)) x) / INR d) <= exp 1).
  { intros x L. assert (lsum (map (fun v => cos (2 * PI * v)) x) / INR d <= 1).
    { apply Rmult_le_reg_r with (INR d); [exact DP|]. unfold Rdiv. rewrite Rmult_assoc, Rinv_l by lra. rewrite Rmult_1_r, Rmult_1_l, <- L.
      apply (lsum_le (fun v => cos (2 * PI * v))). intros v. apply COS_bound. }
    destruct (Rle_lt_or_eq_dec _ _ H) as [H1|H1]; [left; now apply exp_increasing|rewrite H1; lra]. }
  assert (EB : forall x, exp (- (2 / 10) * sqrt (lsum (map (fun v => v ^ 2) x) / INR d)) <= 1).
  { intros x. rewrite <- exp_0. pose proof (sqrt_pos (lsum (map (fun v => v ^ 2) x) / INR d)) as S0.
    destruct (Rle_lt_or_eq_dec _ _ S0) as [H1|H1]; [left; apply exp_increasing; lra|rewrite <- H1; right; f_equal; ring]. }
  assert (Z : ackley (repeat 0 d) = 0).
  { unfold ackley. rewrite repeat_length.
    assert (A : forall n, lsum (map (fun v => v ^ 2) (repeat 0 n)) = 0).
    { induction n as [|n IH]; [reflexivity|]. unfold lsum in *. cbn [repeat map fold_right]. rewrite IH. ring. }
    assert (B : forall n, lsum (map (fun v => cos (2 * PI * v)) (repeat 0 n)) = INR n).
    { induction n as [|n IH]; [reflexivity|]. unfold lsum in *. rewrite S_INR. cbn [repeat map fold_right]. rewrite IH, Rmult_0_r, cos_0. ring. }
    rewrite A, B. replace (0 / INR d) with 0 by (field; lra). rewrite sqrt_0, Rmult_0_r, exp_0. replace (INR d / INR d) with 1 by (field; lra). ring. }
  split; [exists (repeat 0 d); split; [apply repeat_length|reflexivity]|]. split.
  - intros x L. unfold ackley. rewrite L. specialize (CB x L). specialize (EB x). lra.
  - intros x L. split; [|intros ->; exact Z]. unfold ackley. rewrite L. intros H. pose proof (CB x L) as C1. pose proof (EB x) as E1.
    assert (E : exp (- (2 / 10) * sqrt (lsum (map (fun v => v ^ 2) x) / INR d)) = exp 0) by (rewrite exp_0; lra).
    apply exp_inv in E. assert (S0 : sqrt (lsum (map (fun v => v ^ 2) x) / INR d) = 0) by lra.
    apply sqrt_eq_0 in S0; [|apply Rmult_le_pos; [apply SQ|left; now apply Rinv_0_lt_compat]].
    assert (T : lsum (map (fun v => v ^ 2) x) = 0).
    { apply Rmult_eq_reg_r with (/ INR d); [|apply Rinv_neq_0_compat; lra]. unfold Rdiv in S0. lra. }
    apply lsum_zero in T; [|apply Forall_forall; intros v I; apply in_map_iff in I; destruct I as (w & <- & _); apply pow2_ge_0].
    subst d. clear -T. induction x as [|v x IH]; [reflexivity|]. inversion T as [|? ? T1 T2]; subst. apply sq_zero in T1. cbn [length repeat]. rewrite T1, <- IH; auto.
Qed.
(** gSobol: the product of a/(1+a), at one half *)
Lemma gSobol_min a : Forall (fun v => 0 < v) a -> minimum_at (gSobol a) (fun x => length x = length a) (lprod (map (fun v => v / (1 + v)) a)) (fun x => x = repeat (/ 2) (length a)).
Proof.
  intros F. split; [exists (repeat (/ 2) (length a)); split; [apply repeat_length|reflexivity]|].
  assert (P : 0 < lprod (map (fun v => v / (1 + v)) a)).
  { clear -F. induction F as [|v a V _ IH]; simpl; [lra|]. apply Rmult_lt_0_compat; [apply Rdiv_lt_0_compat; lra|exact IH]. }
  assert (G : forall x, length x = length a -> lprod (map (fun v => v / (1 + v)) a) <= gSobol a x /\ (gSobol a x = lprod (map (fun v => v / (1 + v)) a) <-> x = repeat (/ 2) (length a))).
  { clear P. intros x. revert x. induction F as [|v a V F IH]; intros [|w x] L; try discriminate.
    - split; [apply Rle_refl|]. split; reflexivity.
    - injection L as L. destruct (IH x L) as [A B]. unfold gSobol in *. cbn [combine map lprod fold_right fst snd length repeat].
      fold (lprod (map (fun v => v / (1 + v)) a)). fold (lprod (map (fun p => (Rabs (4 * snd p - 2) + fst p) / (1 + fst p)) (combine a x))).
      set (p := lprod (map (fun v => v / (1 + v)) a)) in *. set (q := lprod (map _ (combine a x))) in *.
      assert (PP : 0 < p). { unfold p. clear -F. induction F as [|v a V _ IH]; simpl; [lra|]. apply Rmult_lt_0_compat; [apply Rdiv_lt_0_compat; lra|exact IH]. }
      assert (X : v / (1 + v) <= (Rabs (4 * w - 2) + v) / (1 + v)).
      { apply Rmult_le_compat_r; [left; apply Rinv_0_lt_compat; lra|]. pose proof (Rabs_pos (4 * w - 2)). lra. }
      assert (Y : 0 < v / (1 + v)) by (apply Rdiv_lt_0_compat; lra).
      split; [apply Rmult_le_compat; lra|]. split.
      + intros E. assert (E1 : (Rabs (4 * w - 2) + v) / (1 + v) = v / (1 + v)) by nra. assert (E2 : q = p) by nra.
        apply B in E2. assert (Rabs (4 * w - 2) = 0).
        { apply Rmult_eq_reg_r with (/ (1 + v)); [|apply Rinv_neq_0_compat; lra]. unfold Rdiv in E1. lra. }
        assert (w = / 2). { destruct (Req_dec (4 * w - 2) 0) as [Z|N]; [lra|]. apply Rabs_no_R0 in N. contradiction. }
        subst w. f_equal. exact E2.
      + intros [= -> Q]. apply B in Q. rewrite Q. replace (4 * / 2 - 2) with 0 by lra. rewrite Rabs_R0, Rplus_0_l. reflexivity. }
  split; intros x L; apply G, L.
Qed.
