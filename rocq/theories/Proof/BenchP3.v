(** Proofs about the benchmark functions forrester and alpine2. *)
From Coq Require Import Reals List Lra Lia Psatz.
From Verif.Model Require Import Bench.
From Verif.Spec Require Import BenchSpec.
From Verif.Proof Require Import BenchP BenchP2.
Import ListNotations.
Local Open Scope R_scope.

Lemma cos_bounds4 t : -2 <= t <= 2 -> 1 - t ^ 2 / 2 <= cos t <= 1 - t ^ 2 / 2 + t ^ 4 / 24.
Proof.
  intros [A B]. destruct (pre_cos_bound t 0 A B) as [L U]. unfold cos_approx, cos_term in L, U. simpl in L, U. split; lra.
Qed.
Lemma cos2_bound4 t : -1 <= t <= 1 -> cos t ^ 2 <= 1 - t ^ 2 + t ^ 4 / 3.
Proof.
  intros T. destruct (cos_bounds4 (2 * t) ltac:(lra)) as [_ U]. rewrite cos_2a_cos in U.
  replace (1 - t ^ 2 + t ^ 4 / 3) with ((1 + (1 - (2 * t) ^ 2 / 2 + (2 * t) ^ 4 / 24)) / 2) by field. lra.
Qed.

(** ---- forrester *)
Lemma forrester_core a s : 235 / 100 <= a <= 23562 / 10000 -> -8 / 10 <= s <= 7855 / 10000 -> (a + s) ^ 2 * cos (2 * s) <= 603 / 100.
Proof.
  intros A S0. destruct (cos_bounds4 (2 * s) ltac:(lra)) as [_ U]. pose proof (COS_bound (2 * s)) as C. pose proof (pow2_ge_0 (a + s)) as P.
  destruct (Rle_lt_dec s 0) as [N|N].
  - assert ((a + s) ^ 2 <= (23562 / 10000) ^ 2) by nra. nra.
  - assert (M : (a + s) ^ 2 <= (23562 / 10000 + s) ^ 2) by nra.
    assert (K : 0 <= 1 - (2 * s) ^ 2 / 2 + (2 * s) ^ 4 / 24). { replace (_ + _ / 24) with (2 / 3 * (s ^ 2 - 3 / 2) ^ 2 - 1 / 2) by field. assert (s ^ 2 <= 617011 / 1000000) by nra. nra. }
    apply Rle_trans with ((23562 / 10000 + s) ^ 2 * (1 - (2 * s) ^ 2 / 2 + (2 * s) ^ 4 / 24)); [nra|].
    set (d := s - 19 / 100).
    set (q := -2 / 3 * s ^ 4 - 33949 / 10000 * s ^ 3 - 29671 / 10000 * s ^ 2 + 84198 / 10000 * s + 134100 / 10000).
    assert (Q : 10 <= q).
    { assert (S2 : 0 <= s ^ 2 <= 8 / 10 * s) by nra. assert (S3 : s ^ 3 <= 64 / 100 * s) by (replace (s ^ 3) with (s * s ^ 2) by ring; nra).
      assert (S4 : s ^ 4 <= 64 / 100 * s) by (replace (s ^ 4) with (s ^ 2 * s ^ 2) by ring; nra). unfold q. lra. }
    assert (D : 0 <= d ^ 2 * (q - 10)) by (apply Rmult_le_pos; [apply pow2_ge_0|lra]). pose proof (pow2_ge_0 d) as D2. pose proof (pow2_ge_0 (d - - (4 / 1000))) as D3.
    assert (S2 : 0 <= s ^ 2 <= 1) by nra. assert (S3 : 0 <= s ^ 3 <= 1) by (replace (s ^ 3) with (s * s ^ 2) by ring; nra).
    assert (S4 : 0 <= s ^ 4 <= 1) by (replace (s ^ 4) with (s ^ 2 * s ^ 2) by ring; nra).
    assert (S5 : 0 <= s ^ 5 <= 1) by (replace (s ^ 5) with (s * s ^ 4) by ring; nra).
    unfold d, q in *. lra.
Qed.
Lemma forrester_lower x : 0 <= x <= 1 -> - (603 / 100) <= forrester x.
Proof.
  intros X. pose proof PI_bounds as [PL PU]. unfold forrester. set (u := 6 * x - 2). replace (12 * x - 4) with (2 * u) by (unfold u; ring).
  assert (U : -2 <= u <= 4) by (unfold u; lra). clearbody u. clear x X. pose proof (SIN_bound (2 * u)) as SB. pose proof (pow2_ge_0 u) as U2.
  destruct (Rle_lt_dec u 0) as [L|L]; [assert (u ^ 2 <= 4) by nra; nra|].
  destruct (Rle_lt_dec u (PI / 2)) as [L1|L1]; [assert (0 <= sin (2 * u)) by (apply sin_ge_0; lra); nra|].
  destruct (Rle_lt_dec u PI) as [L2|L2].
  - set (s := u - 3 * PI / 4). pose proof (forrester_core (3 * PI / 4) s ltac:(lra) ltac:(unfold s; lra)) as H.
    replace (3 * PI / 4 + s) with u in H by (unfold s; ring).
    assert (E : sin (2 * u) = - cos (2 * s)). { replace (2 * u) with (3 * (PI / 2) + 2 * s) by (unfold s; field). rewrite sin_plus, sin_3PI2, cos_3PI2. ring. }
    rewrite E. lra.
  - assert (0 <= sin (2 * u)). { replace (2 * u) with (2 * u - 2 * PI + 2 * INR 1 * PI) by (simpl; ring). rewrite sin_period. apply sin_ge_0; lra. }
    nra.
Qed.
Lemma forrester_values : forrester (757 / 1000) < - (601 / 100) /\ - (58 / 10) < forrester (78 / 100).
Proof.
  pose proof PI_bounds as [PL PU]. unfold forrester.
  assert (E : forall v, sin v = - cos (v - 3 * (PI / 2))). { intros v. rewrite cos_minus, sin_3PI2, cos_3PI2. ring. }
  rewrite !E. split.
  - set (t := 12 * (757 / 1000) - 4 - 3 * (PI / 2)). destruct (cos_bounds4 t ltac:(unfold t; lra)) as [L _].
    assert (t ^ 2 <= 13822 / 100000) by (assert (371 / 1000 <= t <= 3717 / 10000) by (unfold t; lra); nra). lra.
  - set (t := 12 * (78 / 100) - 4 - 3 * (PI / 2)). destruct (cos_bounds4 t ltac:(unfold t; lra)) as [_ U].
    assert (T : 647 / 1000 <= t <= 648 / 1000) by (unfold t; lra). assert (T2 : 418609 / 1000000 <= t ^ 2 <= 41991 / 100000) by nra.
    assert (T4 : t ^ 4 <= 1764 / 10000) by (replace (t ^ 4) with (t ^ 2 * t ^ 2) by ring; nra). lra.
Qed.

(** ---- alpine2 *)
Lemma alpine2_factor x : 1 <= x <= 10 -> Rabs (sqrt x * sin x) <= 28082 / 10000.
Proof.
  intros X. pose proof PI_bounds as [PL PU]. pose proof (sqrt_pos x) as SP. pose proof (sqrt_sqrt x ltac:(lra)) as SS.
  assert (Q : (sqrt x * sin x) ^ 2 <= (28082 / 10000) ^ 2).
  { replace ((sqrt x * sin x) ^ 2) with (sqrt x * sqrt x * sin x ^ 2) by ring. rewrite SS.
    assert (S1 : 0 <= sin x ^ 2 <= 1) by (pose proof (SIN_bound x); split; [apply pow2_ge_0|nra]).
    destruct (Rle_lt_dec x (788 / 100)) as [L|L]; [nra|].
    set (t := x - 5 * (PI / 2)).
    assert (E : sin x ^ 2 = cos t ^ 2).
    { unfold t. replace (x - 5 * (PI / 2)) with (x - PI / 2 - 2 * PI) by field.
      rewrite <- (cos_period (x - PI / 2 - 2 * PI) 1). replace (x - PI / 2 - 2 * PI + 2 * INR 1 * PI) with (x - PI / 2) by (simpl; ring).
      rewrite cos_minus, cos_PI2, sin_PI2. f_equal. ring. }
    destruct (Rle_lt_dec t (1 / 2)) as [L1|L1].
    - rewrite E. pose proof (cos2_bound4 t ltac:(unfold t in *; lra)) as C.
      assert (T0 : 26 / 1000 <= t) by (unfold t; lra). assert (X2 : x <= 7854 / 1000 + t) by (unfold t; lra).
      assert (T2 : 0 <= t ^ 2 <= 1 / 4) by nra. assert (K : 0 <= 1 - t ^ 2 + t ^ 4 / 3) by (replace (t ^ 4) with (t ^ 2 * t ^ 2) by ring; nra).
      apply Rle_trans with ((7854 / 1000 + t) * (1 - t ^ 2 + t ^ 4 / 3)); [pose proof (pow2_ge_0 (cos t)); nra|].
      set (d := t - 635 / 10000). set (q := 7948 / 1000 + 663 / 1000 * t - 2661 / 1000 * t ^ 2 - 334 / 1000 * t ^ 3).
      assert (T3 : 0 <= t ^ 3 <= 1 / 8) by (replace (t ^ 3) with (t * t ^ 2) by ring; nra).
      assert (T4 : 0 <= t ^ 4 <= 1 / 16) by (replace (t ^ 4) with (t ^ 2 * t ^ 2) by ring; nra).
      assert (T5 : 0 <= t ^ 5 <= 1 / 32) by (replace (t ^ 5) with (t * t ^ 4) by ring; nra).
      assert (q5 : 5 <= q) by (unfold q; lra).
      assert (D : 0 <= d ^ 2 * (q - 5)) by (apply Rmult_le_pos; [apply pow2_ge_0|lra]). pose proof (pow2_ge_0 d) as D2. pose proof (pow2_ge_0 (d + 7 / 10000)) as D3.
      unfold d, q in *. lra.
    - assert (C : cos t ^ 2 <= 8 / 10 * (8 / 10) + 14 / 100).
      { destruct (cos_bounds4 (1 / 2) ltac:(lra)) as [_ U]. assert (T : t <= 22 / 10) by (unfold t; lra).
        assert (cos t <= cos (1 / 2)) by (apply cos_decr_1; lra).
        assert (- cos (1 / 2) <= cos t). { rewrite <- Rtrigo_facts.cos_pi_minus. apply cos_decr_1; lra. }
        nra. }
      rewrite E. assert (0 <= cos t ^ 2) by apply pow2_ge_0. nra. }
  rewrite <- (Rabs_pos_eq (28082 / 10000)) by lra. apply Rsqr_le_abs_0. unfold Rsqr. lra.
Qed.
Lemma lprod_map2 x : lprod (map sqrt x) * lprod (map sin x) = lprod (map (fun v => sqrt v * sin v) x).
Proof. induction x as [|v x IH]; simpl; [ring|]. rewrite <- IH. ring. Qed.
Lemma alpine2_lower x : Forall (fun v => 1 <= v <= 10) x -> - (28082 / 10000) ^ length x <= alpine2 x.
Proof.
  intros F. unfold alpine2. rewrite lprod_map2.
  assert (A : Rabs (lprod (map (fun v => sqrt v * sin v) x)) <= (28082 / 10000) ^ length x).
  { induction F as [|v x V _ IH]; simpl; [rewrite Rabs_R1; lra|]. rewrite Rabs_mult. apply Rmult_le_compat; try apply Rabs_pos; [apply alpine2_factor, V|exact IH]. }
  pose proof (Rle_abs (lprod (map (fun v => sqrt v * sin v) x))). lra.
Qed.
Lemma alpine2_value d : alpine2 (repeat (7917 / 1000) d) <= - (2808 / 1000) ^ d.
Proof.
  unfold alpine2. rewrite lprod_map2. pose proof PI_bounds as [PL PU].
  assert (V : 2808 / 1000 <= sqrt (7917 / 1000) * sin (7917 / 1000)).
  { destruct (sqrt_bounds (7917 / 1000) (28137 / 10000) (28138 / 10000) ltac:(lra) ltac:(lra) ltac:(lra)) as [L _].
    assert (S0 : 998 / 1000 + 1 / 100000 <= sin (7917 / 1000)).
    { set (t := 7917 / 1000 - 5 * (PI / 2)). replace (7917 / 1000) with (t + PI / 2 + 2 * INR 1 * PI) by (unfold t; simpl; field). rewrite sin_period.
      rewrite sin_plus, cos_PI2, sin_PI2. destruct (cos_bounds4 t ltac:(unfold t; lra)) as [C _]. assert (T : 629 / 10000 <= t <= 6303 / 100000) by (unfold t; lra). clearbody t. assert (t ^ 2 <= (6303 / 100000) ^ 2) by nra. lra. }
    nra. }
  apply Ropp_le_contravar. induction d as [|d IH]; simpl; [lra|]. apply Rmult_le_compat; [lra|apply pow_le; lra|exact V|exact IH].
Qed.
