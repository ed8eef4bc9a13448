(** normalize(Y, 'stats') in double precision, with the mean and the deviation numpy computes in any order of summation. *)
From Coq Require Import List ZArith Bool Reals Lra Lia.
From Flocq Require Import Core IEEE754.BinarySingleNaN.
From Verif.Model Require Import Py Float FloatCons FloatStop FloatNorm.
From Verif.Spec Require Import FloatSpec FloatStopSpec FloatNormSpec.
From Verif.Proof Require Import FloatP FloatStopP FloatConsP FloatAccA FloatLPP FloatNormP.
Import ListNotations.
Local Open Scope R_scope.

(** C129: for up to 2^40 observations of size at most 2^400 every normalised value is a number and their order is never reversed. *)
Theorem C129_order : forall total Y, (forall l, added l (total l)) -> data Y ->
  length (normalize_f total Y) = length Y /\ (forall z, In z (normalize_f total Y) -> number z) /\
  forall i j y y' z z', nth_error Y i = Some y -> nth_error Y j = Some y' -> nth_error (normalize_f total Y) i = Some z -> nth_error (normalize_f total Y) j = Some z' ->
    val y <= val y' -> val z <= val z'.
Proof.
  intros total Y Ht HY. split; [apply map_length|]. pose proof (normal_numbers total Y Ht HY) as N. split; [exact N|].
  apply (normalize_stats_order (mean_f total Y) (std_f total Y) Y); [apply (mean_ok total Y Ht HY) | apply (s_ok total Y Ht HY) | intros y Hy; now apply (proj2 (proj2 HY)) | exact N].
Qed.
Print Assumptions C129_order.

(** If the computed deviation is not below 2^-450, the squares of the normalised values average to 1 up to n 2^-48: none of them exceeds sqrt(n (1 + n 2^-48)). *)
Theorem C129_unit : forall total Y, (forall l, added l (total l)) -> data Y -> bpow radix2 (-450) <= val (std_f total Y) ->
  Rabs (average (map (fun z => val z * val z) (normalize_f total Y)) - 1) <= INR (length Y) * bpow radix2 (-48).
Proof. intros total Y Ht HY H. exact (unit_square total Y Ht HY H). Qed.
Print Assumptions C129_unit.

(** Their average is 0 up to n 2^-49 times the average size of the observations, measured in deviations. *)
Theorem C129_zero : forall total Y, (forall l, added l (total l)) -> data Y -> bpow radix2 (-450) <= val (std_f total Y) ->
  Rabs (average (map val (normalize_f total Y))) <= INR (length Y) * bpow radix2 (-49) * average (map (fun y => Rabs (val y)) Y) / val (std_f total Y) + bpow radix2 (-600).
Proof. intros total Y Ht HY H. exact (zero_mean total Y Ht HY H). Qed.
Print Assumptions C129_zero.

(** The mean itself. *)
Theorem C129_mean : forall total Y, (forall l, added l (total l)) -> data Y ->
  number (mean_f total Y) /\ Rabs (val (mean_f total Y) - average (map val Y)) <= INR (length Y) * bpow radix2 (-51) * average (map (fun y => Rabs (val y)) Y) + bpow radix2 (-1075).
Proof.
  intros total Y Ht HY. destruct (mean_ok total Y Ht HY) as (N & _ & _ & E). split; [exact N|]. apply Rle_trans with (1 := E). right. unfold et. change (-51)%Z with (2 + -53)%Z. rewrite bpow_plus, ee_pow. change (bpow radix2 2) with 4. ring.
Qed.
Print Assumptions C129_mean.

(** Equal observations become 0 where their sum is exact: a single one, or integers with a sum of at most 2^53. *)
Theorem C129_equal : forall total Y c, (forall l, added l (total l)) -> Y <> [] -> (forall y, In y Y -> number y /\ val y = c) ->
  length Y = 1%nat \/ (exists k, c = IZR k /\ (Z.of_nat (length Y) * Z.abs k <= 2 ^ 53)%Z /\ (Z.of_nat (length Y) <= 2 ^ 53)%Z) ->
  forall z, In z (normalize_f total Y) -> number z /\ val z = 0.
Proof.
  intros total Y c Ht NE H [L|(k & -> & B & L)].
  - destruct Y as [|y [|y' Y]]; try discriminate. destruct (H y (or_introl eq_refl)) as [N V]. pose proof (Ht [y]) as T. apply added_single with (y := y) in T; [|reflexivity].
    apply (equal_mean total [y] c Ht NE H); [now rewrite T | cbn; lia | rewrite T, V; cbn; ring].
  - destruct (sum_integers k Y (total Y) (Ht Y) H B) as [N V]. apply (equal_mean total Y (IZR k) Ht NE H N L). rewrite V, mult_IZR, <- INR_IZR_INZ. reflexivity.
Qed.
Print Assumptions C129_equal.

(** Equal observations in general: three times 0.1 becomes three times -1. *)
Theorem C129_equal_refuted : exists total Y c, (forall l, added l (total l)) /\ data Y /\ (forall y, In y Y -> val y = c) /\ length Y = 3%nat /\
  map B2SF (normalize_f total Y) = map B2SF [of_Z (-1); of_Z (-1); of_Z (-1)].
Proof.
  exists from_left, (repeat (lit 7205759403792794 (-56)) 3), (7205759403792794 * bpow radix2 (-56)). destruct (lit_ok 7205759403792794 (-56)) as [N V]; [cbn; lia | lia|].
  split; [exact from_left_added|]. split.
  - split; [discriminate|]. split; [cbn; lia|]. intros y Hy. apply repeat_spec in Hy. subst y. split; [exact N|]. rewrite V. rewrite Rabs_pos_eq by (apply Rmult_le_pos; [lra | apply bpow_ge_0]).
    apply Rle_trans with 1; [change (bpow radix2 (-56)) with (/ 72057594037927936); lra | change 1 with (bpow radix2 0); apply bpow_le; lia].
  - split; [intros y Hy; apply repeat_spec in Hy; subst y; exact V|]. split; [reflexivity|]. vm_compute. reflexivity.
Qed.
Print Assumptions C129_equal_refuted.

(** That different observations stay different fails when one lies 2^512 or more from the mean: its square overflows and everything becomes 0. *)
Theorem C129_overflow : forall total Y, (forall l, added l (total l)) -> (Z.of_nat (length Y) <= 2 ^ 53)%Z ->
  (forall y, In y Y -> number (fsub y (mean_f total Y))) -> (exists y, In y Y /\ bpow radix2 512 <= Rabs (val (fsub y (mean_f total Y)))) ->
  forall z, In z (normalize_f total Y) -> number z /\ val z = 0.
Proof. exact overflowing. Qed.
Print Assumptions C129_overflow.

(** And the deviation is not 1 when all lie within 2^-538 of the mean: the squares vanish and nothing is scaled. *)
Theorem C129_underflow : forall total Y, (forall l, added l (total l)) -> (Z.of_nat (length Y) <= 2 ^ 53)%Z ->
  (forall y, In y Y -> number (fsub y (mean_f total Y))) -> Y <> [] -> (forall y, In y Y -> Rabs (val (fsub y (mean_f total Y))) <= bpow radix2 (-538)) ->
  normalize_f total Y = map (fun y => fsub y (mean_f total Y)) Y.
Proof. exact vanishing. Qed.
Print Assumptions C129_underflow.

(** 1, 2, 3, 6 have the mean 3 and the deviation sqrt(14)/2; 0 and 2^513 overflow; 0 and 2^-600 vanish. *)
Example C129_nonvacuous :
  (let Y := [of_Z 1; of_Z 2; of_Z 3; of_Z 6] in data Y /\ bpow radix2 (-450) <= val (std_f from_left Y) /\ B2SF (mean_f from_left Y) = B2SF (of_Z 3)) /\
  (let Y := [of_Z 0; lit 1 513] in map B2SF (map (fun y => fsub y (mean_f from_left Y)) Y) = map B2SF [lit (-1) 512; lit 1 512] /\ map B2SF (normalize_f from_left Y) = map B2SF [fneg (of_Z 0); of_Z 0]) /\
  (let Y := [of_Z 0; lit 1 (-600)] in map B2SF (normalize_f from_left Y) = map B2SF [lit (-1) (-601); lit 1 (-601)]).
Proof.
  assert (O : forall k, (Z.abs k <= 2 ^ 53)%Z -> number (of_Z k) /\ val (of_Z k) = IZR k) by (intros k H; now apply of_Z_ok). split; [|split; [split|]; vm_compute; reflexivity].
  cbv zeta. assert (D : data [of_Z 1; of_Z 2; of_Z 3; of_Z 6]).
  { split; [discriminate|]. split; [cbn; lia|]. assert (B : forall k, (Z.abs k <= 6)%Z -> number (of_Z k) /\ Rabs (val (of_Z k)) <= bpow radix2 400).
    { intros k Hk. destruct (O k) as [N V]; [lia|]. split; [exact N|]. rewrite V, <- abs_IZR. apply Rle_trans with 8; [apply IZR_le; lia | change 8 with (bpow radix2 3); apply bpow_le; lia]. }
    intros y [<-|[<-|[<-|[<-|[]]]]]; apply B; cbn; lia. }
  split; [exact D|]. split; [|vm_compute; reflexivity].
  destruct (s_ok from_left _ from_left_added D) as (Ns & _). destruct (O 1%Z) as [N1 V1]; [cbn; lia|].
  assert (G : flt (of_Z 1) (std_f from_left [of_Z 1; of_Z 2; of_Z 3; of_Z 6]) = true) by (vm_compute; reflexivity). apply (flt_true _ _ N1 Ns) in G. rewrite V1 in G.
  assert (bpow radix2 (-450) <= 1) by (change 1 with (bpow radix2 0); apply bpow_le; lia). lra.
Qed.
