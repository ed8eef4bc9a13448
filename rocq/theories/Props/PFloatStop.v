(** C112: when the loop stops, in double precision. *)
From Coq Require Import List ZArith Bool Reals Lra Lia.
From Flocq Require Import Core IEEE754.BinarySingleNaN.
From Verif.Model Require Import Py Float FloatStop.
From Verif.Spec Require Import FloatSpec FloatStopSpec.
From Verif.Proof Require Import FloatP FloatStopP.
Import ListNotations.
Local Open Scope R_scope.

(** Throughout, [total] is any function that adds the entries of a vector in some order.  The budget [infinite] keeps the
    first test from ending the loop, so that what is left is the test on the distance. *)

(** Two equal rows end the loop for every eps that is not negative, plus infinity included. *)
Theorem C112_equal_rows_stop : forall total max_iter eps num X a b, (forall l, added l (total l)) -> numbers a -> numbers b ->
  map val a = map val b -> (number eps /\ 0 <= val eps) \/ eps = infinite ->
  leaves total max_iter eps num (X ++ [b; a]) = true.
Proof.
  intros total max_iter eps num X a b Ht Ha Hb E He. unfold leaves. rewrite two_rows, last_two.
  destruct (distance_same total a b Ht Ha Hb E) as [N Z]. rewrite (nn_fle (distance total a b) eps).
  - rewrite Rle_bool_true; [rewrite orb_true_r; reflexivity|]. unfold ext at 1. rewrite N, Z. apply nn_ext_pos. exact He.
  - left. split; auto. lra.
  - exact He.
Qed.
Print Assumptions C112_equal_rows_stop.

(** If the loop ends on account of the distance, the points are as close as eps says, up to a relative error of 2^-30 and
    an absolute one of 2^-520; rows have at most 2^20 entries. *)
Theorem C112_stop_means_close : forall total eps num X a b, (forall l, added l (total l)) -> numbers a -> numbers b ->
  (Z.of_nat (length a) <= 2 ^ 20)%Z -> number eps -> (0 <= num <= 2 ^ 53)%Z ->
  leaves total infinite eps num (X ++ [b; a]) = true -> real_distance a b <= (1 + bpow radix2 (-30)) * val eps + bpow radix2 (-520).
Proof.
  intros total eps num X a b Ht Ha Hb Hn He Hk H. unfold leaves in H. rewrite two_rows, last_two in H. cbn [andb] in H.
  assert (E : fle infinite (of_Z num) = false).
  { destruct (of_Z_ok num) as [A _]; [lia|]. destruct (of_Z num); try discriminate; reflexivity. }
  rewrite E in H. cbn [orb] in H.
  assert (N : number (distance total a b)).
  { destruct (distance_nn total a b Ht Ha Hb) as [[N _]|I]; auto. rewrite I in H. destruct eps; discriminate. }
  rewrite fle_ok in H by auto. destruct (Rle_bool_spec (val (distance total a b)) (val eps)) as [L|]; [|discriminate].
  pose proof (distance_low total a b Ht Ha Hb Hn N) as D. pose proof (bpow_ge_0 radix2 (-30)). nra.
Qed.
Print Assumptions C112_stop_means_close.

(** Conversely, points that are closer than eps by that margin end the loop, unless they are more than 2^500 apart. *)
Theorem C112_close_means_stop : forall total max_iter eps num X a b, (forall l, added l (total l)) -> numbers a -> numbers b ->
  (Z.of_nat (length a) <= 2 ^ 20)%Z -> number eps -> real_distance a b <= bpow radix2 500 ->
  (1 + bpow radix2 (-30)) * real_distance a b + bpow radix2 (-520) <= val eps ->
  leaves total max_iter eps num (X ++ [b; a]) = true.
Proof.
  intros total max_iter eps num X a b Ht Ha Hb Hn He Hd H. unfold leaves. rewrite two_rows, last_two.
  destruct (distance_high total a b Ht Ha Hb Hn Hd) as [N D]. rewrite (fle_ok (distance total a b) eps) by auto.
  rewrite Rle_bool_true by lra. apply orb_true_r.
Qed.
Print Assumptions C112_close_means_stop.

(** A NaN among the differences (a NaN coordinate, or the same infinity twice) keeps the rule from ever ending the loop,
    whatever eps is; so does an eps that is NaN, negative or minus infinity, whatever the rows are. *)
Theorem C112_nan_rows : forall total max_iter eps num X a b, (forall l, added l (total l)) ->
  (exists x y, In (x, y) (combine a b) /\ nan_p (fsub x y) = true) ->
  leaves total max_iter eps num (X ++ [b; a]) = fle max_iter (of_Z num).
Proof.
  intros total max_iter eps num X a b Ht H. unfold leaves. rewrite two_rows, last_two.
  rewrite (fle_nan (distance total a b) eps) by (left; apply distance_nan; auto). apply orb_false_r.
Qed.
Print Assumptions C112_nan_rows.
Theorem C112_no_threshold : forall total max_iter eps num X, (forall l, added l (total l)) -> below eps ->
  leaves total max_iter eps num X = fle max_iter (of_Z num).
Proof. exact leaves_below. Qed.
Print Assumptions C112_no_threshold.
(** eps plus infinity: any two rows of numbers end the loop, however far apart. *)
Theorem C112_infinite_threshold : forall total max_iter num X a b, (forall l, added l (total l)) -> numbers a -> numbers b ->
  leaves total max_iter infinite num (X ++ [b; a]) = true.
Proof.
  intros total max_iter num X a b Ht Ha Hb. unfold leaves. rewrite two_rows, last_two.
  pose proof (distance_nn total a b Ht Ha Hb) as N. rewrite (nn_fle (distance total a b) infinite) by (auto; right; reflexivity).
  rewrite Rle_bool_true; [apply orb_true_r|]. apply nn_ext_le. exact N.
Qed.
Print Assumptions C112_infinite_threshold.

(** With eps = 0 the loop can end although the rows differ: squares of differences below 2^-538 vanish. *)
Theorem C112_different_rows_stop_refuted : exists a b, (forall total, (forall l, added l (total l)) ->
    leaves total infinite f0 0 [b; a] = true) /\ numbers a /\ numbers b /\ 0 < real_distance a b.
Proof.
  exists [lit 1 (-540)], [f0]. destruct (lit_ok 1 (-540)) as [A B]; [lia|lia|]. destruct f0_ok as [C D].
  split; [|split; [intros x [<-|[]]; exact A|split; [intros x [<-|[]]; exact C|]]].
  - intros total Ht. unfold leaves. change [[f0]; [lit 1 (-540)]] with ([] ++ [[f0]; [lit 1 (-540)]]). rewrite two_rows, last_two.
    assert (E : squares [lit 1 (-540)] [f0] = [f0]) by (vm_compute; reflexivity).
    unfold distance. rewrite E. pose proof (added_nn _ _ (Ht [f0])) as (N & _ & Z).
    { intros b [<-|[]]. apply nn_f0. }
    destruct (nn_sqrt _ N) as (N2 & _ & Z2). rewrite (nn_fle (fsqrt (total [f0])) f0); [|exact N2|apply nn_f0].
    rewrite Rle_bool_true; [reflexivity|]. rewrite Z2.
    + apply nn_ext_pos. apply nn_f0.
    + apply Z. intros b [<-|[]]. unfold ext. rewrite C. exact D.
  - unfold real_distance. cbn [combine map rsum fst snd]. rewrite B, D. apply sqrt_lt_R0.
    pose proof (bpow_gt_0 radix2 (-540)). nra.
Qed.
Print Assumptions C112_different_rows_stop_refuted.
(** Far away points never end the loop, although eps is larger than their distance: the squares overflow. *)
Theorem C112_large_threshold_refuted : exists a b eps, (forall total, (forall l, added l (total l)) ->
    leaves total infinite eps 0 [b; a] = false) /\ numbers a /\ numbers b /\ number eps /\ real_distance a b < val eps.
Proof.
  exists [lit 1 600], [f0], (lit 1 700). destruct (lit_ok 1 600) as [A B]; [lia|lia|]. destruct (lit_ok 1 700) as [A' B']; [lia|lia|].
  destruct f0_ok as [C D].
  split; [|split; [intros x [<-|[]]; exact A|split; [intros x [<-|[]]; exact C|split; [exact A'|]]]].
  - intros total Ht. unfold leaves. change [[f0]; [lit 1 600]] with ([] ++ [[f0]; [lit 1 600]]). rewrite two_rows, last_two.
    assert (E : squares [lit 1 600] [f0] = [infinite]) by (vm_compute; reflexivity).
    unfold distance. rewrite E. destruct (added_nn _ _ (Ht [infinite])) as (N & M & _).
    { intros b [<-|[]]. right. reflexivity. }
    specialize (M infinite (or_introl eq_refl)). destruct N as [[N _]| ->].
    + exfalso. pose proof (val_lt (total [infinite])) as V. unfold ext in M. rewrite N in M. cbn [infinite is_finite] in M.
      pose proof (Rle_abs (val (total [infinite]))). lra.
    + vm_compute. reflexivity.
  - unfold real_distance. cbn [combine map rsum fst snd]. rewrite B, B', D.
    replace ((1 * bpow radix2 600 - 0) * (1 * bpow radix2 600 - 0) + 0) with (Rsqr (bpow radix2 600)) by (unfold Rsqr; ring).
    rewrite sqrt_Rsqr by apply bpow_ge_0. rewrite Rmult_1_l. apply bpow_lt. lia.
Qed.
Print Assumptions C112_large_threshold_refuted.
(** The answer can depend on the order in which the machine adds. *)
Theorem C112_order_refuted : exists total total' a b eps, (forall l, added l (total l)) /\ (forall l, added l (total' l)) /\
  numbers a /\ numbers b /\ number eps /\ leaves total infinite eps 0 [b; a] = true /\ leaves total' infinite eps 0 [b; a] = false.
Proof.
  exists from_left, from_right, (of_Z 1 :: repeat (lit 1 (-27)) 8), (repeat f0 9), (of_Z 1).
  split; [exact from_left_added|]. split; [exact from_right_added|].
  split; [intros x [<-|H]; [reflexivity|apply repeat_spec in H as ->; reflexivity]|].
  split; [intros x H; apply repeat_spec in H as ->; reflexivity|]. split; [reflexivity|].
  split; vm_compute; reflexivity.
Qed.
Print Assumptions C112_order_refuted.

(** * The whole loop *)

(** A numeric budget without the distance rule: the number of passes is the first integer that reaches it (a budget of 2.5
    gives three passes, a negative one none). *)
Theorem C112_budget : forall total max_iter eps zero X steps (k : nat), (forall l, added l (total l)) -> below eps -> number max_iter ->
  val max_iter <= INR k -> (k = 0%nat \/ INR k - 1 < val max_iter) -> (Z.of_nat k <= 2 ^ 53)%Z -> (k <= length steps)%nat ->
  (forall rows now, In (rows, now) steps -> number (cum_time now zero)) ->
  passes total max_iter infinite eps zero 0 f0 X steps = Some (Z.of_nat k, X ++ concat (map fst (firstn k steps))).
Proof.
  intros total m e zero X steps k Ht He Hm Hv Hk Hb Hl Hs. rewrite INR_IZR_INZ in *.
  apply (passes_budget total m e zero Ht He Hm steps k 0%Z f0 X); auto; try lia; try reflexivity.
  intros j Hj. destruct Hk as [-> |Hk]; [lia|]. apply Rle_lt_trans with (2 := Hk). rewrite <- minus_IZR. apply IZR_le. lia.
Qed.
Print Assumptions C112_budget.
(** Neither an infinite budget nor one that is NaN ever ends the loop. *)
Theorem C112_endless : forall total max_iter eps zero X steps, (forall l, added l (total l)) -> below eps ->
  nan_p max_iter = true \/ max_iter = infinite -> (Z.of_nat (length steps) <= 2 ^ 53)%Z ->
  (forall rows now, In (rows, now) steps -> number (cum_time now zero)) ->
  passes total max_iter infinite eps zero 0 f0 X steps = None.
Proof. intros total m e zero X steps Ht He Hm Hl Hs. apply (passes_endless total m e zero Ht He Hm); auto; try lia; reflexivity. Qed.
Print Assumptions C112_endless.
(** A time limit that is NaN, minus infinity or not positive: no pass at all. *)
Theorem C112_no_time : forall total max_iter max_time eps zero X steps, below max_time \/ (number max_time /\ val max_time = 0) ->
  passes total max_iter max_time eps zero 0 f0 X steps = Some (0%Z, X).
Proof.
  intros total m mt e zero X steps H. assert (E : enters mt f0 = false).
  { destruct f0_ok as [C D]. unfold enters. destruct H as [[H|[-> |[N L]]]|[N L]].
    - destruct mt; try discriminate. reflexivity.
    - reflexivity.
    - rewrite flt_ok by auto. apply Rlt_bool_false. lra.
    - rewrite flt_ok by auto. apply Rlt_bool_false. lra. }
  destruct steps as [|[r n] s]; cbn [passes]; rewrite E; reflexivity.
Qed.
Print Assumptions C112_no_time.
(** The pass at whose end the clock shows that the limit is reached is the last one, although the elapsed time is rounded. *)
Theorem C112_time_limit : forall total max_iter max_time eps zero X steps j rows now, number max_time -> number zero ->
  nth_error steps j = Some (rows, now) -> number now -> number (cum_time now zero) -> val max_time <= val now - val zero ->
  exists k X', passes total max_iter max_time eps zero 0 f0 X steps = Some (k, X') /\ (0 <= k <= Z.of_nat j + 1)%Z.
Proof.
  intros total m mt e zero X steps j rows now Hm Hz Hj Hn Hc H.
  destruct (passes_time total m e mt zero Hm Hz steps j rows now 0%Z f0 X Hj Hn Hc H) as (k & X' & P1 & P2). exists k, X'. split; auto.
Qed.
Print Assumptions C112_time_limit.
(** ... and no pass is lost while the elapsed time is below the limit by one part in 2^52. *)
Theorem C112_time_left : forall max_time now zero, number max_time -> number now -> number zero -> number (cum_time now zero) ->
  0 < val max_time -> val now - val zero <= (1 - bpow radix2 (-52)) * val max_time -> enters max_time (cum_time now zero) = true.
Proof. exact time_left. Qed.
Print Assumptions C112_time_left.

(** Rows (1, 2) and (1, 2 + 2^-30): they end the loop with eps = 2^-20, not with eps = 2^-40, and the hypotheses of the two
    theorems on the distance hold for them. *)
Example C112_nonvacuous : let a := [of_Z 1; lit 2147483649 (-30)] in let b := [of_Z 1; of_Z 2] in
  numbers a /\ numbers b /\ (Z.of_nat (length a) <= 2 ^ 20)%Z /\ real_distance a b = bpow radix2 (-30) /\
  (1 + bpow radix2 (-30)) * real_distance a b + bpow radix2 (-520) <= val (lit 1 (-20)) /\
  leaves from_left infinite (lit 1 (-20)) 0 [b; a] = true /\ leaves from_left infinite (lit 1 (-40)) 0 [b; a] = false.
Proof.
  cbv zeta. destruct (of_Z_ok 1) as [A1 B1]; [lia|]. destruct (of_Z_ok 2) as [A2 B2]; [lia|].
  destruct (lit_ok 2147483649 (-30)) as [A3 B3]; [lia|lia|]. destruct (lit_ok 1 (-20)) as [A4 B4]; [lia|lia|].
  split; [intros x [<-|[<-|[]]]; auto|]. split; [intros x [<-|[<-|[]]]; auto|]. split; [simpl; lia|].
  assert (E : real_distance [of_Z 1; lit 2147483649 (-30)] [of_Z 1; of_Z 2] = bpow radix2 (-30)).
  { unfold real_distance. cbn [combine map rsum fst snd]. rewrite B1, B2, B3.
    replace (1 - 1) with 0 by ring. replace (IZR 2147483649 * bpow radix2 (-30) - 2) with (bpow radix2 (-30)) by (simpl; lra).
    replace (0 * 0 + (bpow radix2 (-30) * bpow radix2 (-30) + 0)) with (Rsqr (bpow radix2 (-30))) by (unfold Rsqr; ring).
    apply sqrt_Rsqr. apply bpow_ge_0. }
  split; [exact E|]. split; [|split; vm_compute; reflexivity].
  rewrite E, B4. assert (L : bpow radix2 (-520) <= bpow radix2 (-30)) by (apply bpow_le; lia).
  apply Rle_trans with ((1 + bpow radix2 (-30)) * bpow radix2 (-30) + bpow radix2 (-30)); [lra|]. simpl. lra.
Qed.
(** A budget of 2.5 on four possible passes. *)
Example C112_nonvacuous_loop : let steps := map (fun i => ([[of_Z i]], of_Z (100 + i))) [1; 2; 3; 4]%Z in
  number (lit 5 (-1)) /\ val (lit 5 (-1)) <= INR 3 /\ INR 3 - 1 < val (lit 5 (-1)) /\ below (of_Z (-1)) /\
  (forall rows now, In (rows, now) steps -> number (cum_time now (of_Z 100))) /\
  passes from_left (lit 5 (-1)) (lit 7 0) (of_Z (-1)) (of_Z 100) 0 f0 [[of_Z 0]] steps = Some (3%Z, [[of_Z 0]; [of_Z 1]; [of_Z 2]; [of_Z 3]]) /\
  passes from_left (lit 5 (-1)) (lit 2 0) (of_Z (-1)) (of_Z 100) 0 f0 [[of_Z 0]] steps = Some (2%Z, [[of_Z 0]; [of_Z 1]; [of_Z 2]]).
Proof.
  cbv zeta. destruct (lit_ok 5 (-1)) as [A B]; [lia|lia|]. destruct (of_Z_ok (-1)) as [C D]; [lia|].
  split; [exact A|]. rewrite B. split; [simpl; lra|]. split; [simpl; lra|]. split; [right; right; split; [exact C|rewrite D; lra]|].
  split; [|split; reflexivity].
  intros rows now H. cbn [map] in H. repeat (destruct H as [H|H]; [injection H as <- <-; reflexivity|]). destruct H.
Qed.

(** A NaN coordinate and the same infinity twice: the distance rule is off although eps is 100, and the budget of five still
    counts.  With numbers in their place the loop ends at once. *)
Example C112_nonvacuous_nan : let nan : float := B754_nan in
  (exists x y, In (x, y) (combine [of_Z 1; nan] [of_Z 1; of_Z 2]) /\ nan_p (fsub x y) = true) /\
  (exists x y, In (x, y) (combine [infinite] [infinite]) /\ nan_p (fsub x y) = true) /\
  leaves from_left (of_Z 5) (of_Z 100) 4 [[of_Z 1; of_Z 2]; [of_Z 1; nan]] = false /\
  leaves from_left (of_Z 5) (of_Z 100) 5 [[of_Z 1; of_Z 2]; [of_Z 1; nan]] = true /\
  leaves from_left (of_Z 5) (of_Z 100) 4 [[infinite]; [infinite]] = false /\
  leaves from_left (of_Z 5) (of_Z 100) 4 [[of_Z 1; of_Z 2]; [of_Z 1; of_Z 3]] = true.
Proof.
  cbv zeta. split; [exists B754_nan, (of_Z 2); split; [right; left; reflexivity|reflexivity]|].
  split; [exists infinite, infinite; split; [left; reflexivity|reflexivity]|]. repeat split; vm_compute; reflexivity.
Qed.
