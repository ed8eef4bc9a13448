(** The Newton iteration of iroot. *)
From Coq Require Import List ZArith Bool Lia.
From Verif.Model Require Import Py Design.
Import ListNotations.
Local Open Scope Z_scope.

(** r^k + (k-1) s^k >= k r s^(k-1), for k = S m *)
Lemma amgm (r s : Z) (m : nat) : 0 <= r -> 0 <= s ->
  (Z.of_nat (S m)) * r * s ^ Z.of_nat m - Z.of_nat m * s ^ Z.of_nat (S m) <= r ^ Z.of_nat (S m).
Proof.
  intros Hr Hs. induction m as [|m IH].
  - simpl Z.of_nat. rewrite Z.pow_0_r, !Z.pow_1_r. lia.
  - rewrite (Nat2Z.inj_succ (S m)), (Z.pow_succ_r r) by lia.
    assert (E1 : s ^ Z.of_nat (S m) = s * s ^ Z.of_nat m) by (rewrite Nat2Z.inj_succ, Z.pow_succ_r; lia).
    assert (E2 : s ^ Z.succ (Z.of_nat (S m)) = s * (s * s ^ Z.of_nat m)) by (rewrite Z.pow_succ_r, E1; lia).
    rewrite E2, E1. rewrite E1 in IH.
    set (p := s ^ Z.of_nat m) in *. assert (0 <= p) by (apply Z.pow_nonneg; auto).
    set (R := r ^ Z.of_nat (S m)) in *.
    rewrite Nat2Z.inj_succ in *. set (k := Z.of_nat m) in *. assert (0 <= k) by lia.
    assert (A : r * (Z.succ k * r * p - k * (s * p)) <= r * R) by (apply Z.mul_le_mono_nonneg_l; auto).
    assert (B : 0 <= Z.succ k * p * ((r - s) * (r - s))).
    { apply Z.mul_nonneg_nonneg; [apply Z.mul_nonneg_nonneg; lia|apply Z.square_nonneg]. }
    nia.
Qed.

Lemma newton_ge r s k n : 0 <= r -> 1 <= s -> 1 <= k -> r ^ k <= n ->
  r <= ((k - 1) * s + n / s ^ (k - 1)) / k.
Proof.
  intros Hr Hs Hk Hn. apply Z.div_le_lower_bound; [lia|].
  assert (P : 0 < s ^ (k - 1)) by (apply Z.pow_pos_nonneg; lia).
  cut (k * r - (k - 1) * s <= n / s ^ (k - 1)); [lia|].
  apply Z.div_le_lower_bound; auto.
  pose proof (amgm r s (Z.to_nat (k - 1)) Hr ltac:(lia)) as A.
  rewrite Nat2Z.inj_succ, Z2Nat.id in A by lia. replace (Z.succ (k - 1)) with k in A by lia.
  assert (E : s ^ k = s * s ^ (k - 1)) by (rewrite <- Z.pow_succ_r by lia; f_equal; lia).
  rewrite E in A. nia.
Qed.

Lemma newton_stop s k n : 1 <= s -> 1 <= k ->
  s <= ((k - 1) * s + n / s ^ (k - 1)) / k -> s ^ k <= n.
Proof.
  intros Hs Hk H.
  assert (P : 0 < s ^ (k - 1)) by (apply Z.pow_pos_nonneg; lia).
  assert (A : k * s <= (k - 1) * s + n / s ^ (k - 1)).
  { pose proof (Z.mul_div_le ((k - 1) * s + n / s ^ (k - 1)) k ltac:(lia)). nia. }
  assert (B : s <= n / s ^ (k - 1)) by lia.
  assert (E : s ^ k = s ^ (k - 1) * s) by (rewrite Z.mul_comm, <- Z.pow_succ_r by lia; f_equal; lia).
  rewrite E. pose proof (Z.mul_div_le n (s ^ (k - 1)) P). nia.
Qed.

Lemma pow_ge_base r k : 0 <= r -> 1 <= k -> r <= r ^ k.
Proof.
  intros. destruct (Z.eq_dec r 0) as [->|]; [rewrite Z.pow_0_l; lia|].
  rewrite <- (Z.pow_1_r r) at 1. apply Z.pow_le_mono_r; lia.
Qed.

Lemma iroot_loop_spec k n : 1 <= k -> 1 <= n -> forall fuel u s,
  (Z.to_nat u < fuel)%nat ->
  (forall r, 0 <= r -> r ^ k <= n -> r <= u) ->
  (u >= s -> 1 <= s /\ s ^ k <= n /\ (forall r, 0 <= r -> r ^ k <= n -> r <= s)) ->
  exists r, iroot_loop fuel k n u s = Ok r /\ 1 <= r /\ r ^ k <= n /\ n < (r + 1) ^ k.
Proof.
  intros Hk Hn. induction fuel as [|f IH]; intros u s F Hu Hs; [lia|]. cbn [iroot_loop].
  assert (U1 : 1 <= u). { apply Hu; [lia|]. rewrite Z.pow_1_l; lia. }
  destruct (Z.ltb_spec u s).
  - destruct (Z.eqb_spec k 0); [lia|].
    assert (P : 0 < u ^ (k - 1)) by (apply Z.pow_pos_nonneg; lia).
    destruct (Z.eqb_spec (u ^ (k - 1)) 0); [lia|].
    set (u' := ((k - 1) * u + n / u ^ (k - 1)) / k) in *.
    assert (Hu' : forall r, 0 <= r -> r ^ k <= n -> r <= u') by (intros; apply newton_ge; auto).
    destruct (Z_lt_le_dec u' u) as [L|L].
    + apply IH; auto. lia. lia.
    + destruct f as [|f']. lia. cbn [iroot_loop]. destruct (Z.ltb_spec u' u); [lia|].
      exists u. assert (u ^ k <= n) by (apply newton_stop; auto). repeat split; auto.
      destruct (Z_lt_le_dec n ((u + 1) ^ k)); auto. specialize (Hu (u + 1) ltac:(lia) l). lia.
  - destruct (Hs ltac:(lia)) as (S1 & S2 & S3). exists s. repeat split; auto.
    destruct (Z_lt_le_dec n ((s + 1) ^ k)); auto. specialize (S3 (s + 1) ltac:(lia) l). lia.
Qed.

Lemma iroot_spec k n : 1 <= k -> 1 <= n ->
  exists r, iroot k n = Ok r /\ 1 <= r /\ r ^ k <= n /\ n < (r + 1) ^ k.
Proof.
  intros. unfold iroot. apply iroot_loop_spec; auto; try lia.
  intros r R1 R2. pose proof (pow_ge_base r k R1 ltac:(auto)). lia.
Qed.

Lemma iroot_unique k n a b : 1 <= k -> 0 <= a -> 0 <= b ->
  a ^ k <= n < (a + 1) ^ k -> b ^ k <= n < (b + 1) ^ k -> a = b.
Proof.
  intros K A B Ha Hb. destruct (Z.lt_trichotomy a b) as [L|[L|L]]; auto.
  - pose proof (Z.pow_le_mono_l (a + 1) b k ltac:(lia)). lia.
  - pose proof (Z.pow_le_mono_l (b + 1) a k ltac:(lia)). lia.
Qed.

(** the other arguments *)
Lemma iroot_zero_k n : 0 <= n -> iroot 0 n = Raise ZeroDivisionError.
Proof.
  intro. unfold iroot. rewrite Nat.add_comm. cbn [iroot_loop plus]. destruct (Z.ltb_spec n (n + 1)); [reflexivity|lia].
Qed.
Lemma iroot_zero_n k : 1 <= k -> iroot k 0 = if k =? 1 then Ok 0 else Raise ZeroDivisionError.
Proof.
  intro K. unfold iroot. cbn. destruct (Z.eqb_spec k 0); [lia|]. destruct (Z.eqb_spec k 1).
  - subst. reflexivity.
  - rewrite Z.pow_0_l by lia. reflexivity.
Qed.
