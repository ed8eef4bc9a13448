(** Distances and the rounding of bandit variables in double precision (C94, C130).  Specification: Spec/FloatStopSpec.v, Spec/FloatBanditSpec.v.
    Model: Model/FloatBandit.v, Model/FloatStop.v. *)
From Coq Require Import List ZArith Bool Reals Lra Lia.
From Flocq Require Import Core IEEE754.BinarySingleNaN.
From Verif.Model Require Import Py Float FloatStop FloatBandit.
From Verif.Spec Require Import FloatSpec FloatStopSpec FloatBanditSpec.
From Verif.Proof Require Import FloatP FloatStopP FloatConsP FloatAccA FloatNormP FloatBanditP.
Import ListNotations.
Local Open Scope R_scope.

(** * C94: a bandit variable is rounded to an arm *)
Theorem C94_bandit_member : forall total (arms : list (list float)) (x : list float), arms <> [] -> exists arm, round_bandit total arms x = Ok arm /\ In arm arms.
Proof. exact round_bandit_arm. Qed.
Print Assumptions C94_bandit_member.
(** without arms there is nothing to round to *)
Theorem C94_bandit_refused : forall total x, round_bandit total [] x = Raise ValueError.
Proof. reflexivity. Qed.
Print Assumptions C94_bandit_refused.
(** an arm is kept up to differences below 2^-500 *)
Theorem C94_bandit_fixes : forall total (arms : list (list float)) (x own : list float), (forall l, added l (total l)) -> numbers x ->
  (forall arm, In arm arms -> length arm = length x /\ numbers arm) -> In own arms -> Forall2 (fun a v => val a = val v) own x ->
  exists arm, round_bandit total arms x = Ok arm /\ In arm arms /\ Forall2 (fun a v => Rabs (val a - val v) < bpow radix2 (-500)) arm x.
Proof.
  intros total arms x own Ht Hx Ha Ho E. destruct (round_bandit_least total arms x Ht) as (i & arm & R & Ni & M); [intros ->; destruct Ho | exact Hx | intros arm Hin; now apply Ha|].
  assert (Hin : In arm arms) by now apply nth_error_In in Ni. exists arm. split; [exact R|]. split; [exact Hin|]. destruct (Ha arm Hin) as [L N]. destruct (In_nth_error _ _ Ho) as [j Hj]. destruct (M j own Hj) as [Q _].
  destruct (distance_same total own x Ht (proj2 (Ha own Ho)) Hx) as [Z1 Z2]; [clear - E; induction E; cbn; congruence|]. unfold ext at 2 in Q. rewrite Z1, Z2 in Q.
  pose proof (distance_zero total arm x Ht N Hx L Q) as F. clear - F. induction F as [|u v arm x H F IH]; constructor; [|exact IH]. apply Rnot_le_lt. exact H.
Qed.
Print Assumptions C94_bandit_fixes.
Example C94_nonvacuous_bandit : exists (arms : list (list float)) (x own : list float), (forall l, added l (from_left l)) /\ numbers x /\
  (forall arm, In arm arms -> length arm = length x /\ numbers arm) /\ In own arms /\ Forall2 (fun a v => val a = val v) own x /\ length arms = 2%nat /\
  match round_bandit from_left arms x with Ok r => map B2SF r | Raise _ => [] end = map B2SF own.
Proof.
  assert (N : forall a b, numbers [of_Z a; of_Z b] <-> number (of_Z a) /\ number (of_Z b)).
  { intros a b. split; [intros H; split; apply H; cbn; auto | intros [A B] v [<-|[<-|[]]]; assumption]. }
  exists [[of_Z 1; of_Z 2]; [of_Z 3; of_Z 4]], [of_Z 3; of_Z 4], [of_Z 3; of_Z 4]. split; [exact from_left_added|]. split; [apply N; split; reflexivity|].
  split; [intros arm [<-|[<-|[]]]; (split; [reflexivity | apply N; split; reflexivity])|]. split; [right; left; reflexivity|].
  split; [constructor; [apply eq_refl | constructor; [apply eq_refl|constructor]]|]. split; [apply eq_refl|].
  vm_compute. reflexivity.
Qed.
(** ... not exactly: the squares of tiny differences underflow *)
Theorem C94_bandit_refuted : exists total (arms : list (list float)) (x arm : list float), (forall l, added l (total l)) /\ In x arms /\ round_bandit total arms x = Ok arm /\
  (forall v, In v (concat arms) -> number v) /\ Forall2 (fun a v => flt a v = true) arm x.
Proof.
  exists from_left, [[f0]; [lit 1 (-600)]], [lit 1 (-600)], [f0]. split; [exact from_left_added|]. split; [right; left; reflexivity|].
  split; [vm_compute; reflexivity|]. split; [intros v [<-|[<-|[]]]; reflexivity|]. constructor; [reflexivity|constructor].
Qed.
Print Assumptions C94_bandit_refuted.

(** * C130: how accurate distances are, and that the arm chosen is nearly the nearest *)
(** Rows of at most 2^40 coordinates of size at most 2^400: the computed distance is the exact one up to n 2^-49 of it and 2^-516, in whatever order numpy adds. *)
Theorem C130_distance : forall total a x, (forall l, added l (total l)) -> moderate a -> moderate x -> length a = length x ->
  number (distance total a x) /\ Rabs (val (distance total a x) - real_distance a x) <= INR (length a) * bpow radix2 (-49) * real_distance a x + bpow radix2 (-516).
Proof.
  intros total a x Ht Ha Hx L. destruct (distance_near total a x Ht Ha Hx L) as [N E]. split; [exact N|]. apply Rle_trans with (1 := E). apply Rplus_le_compat_r. apply Rmult_le_compat_r; [apply sqrt_pos|].
  change (-49)%Z with (4 + -53)%Z. rewrite bpow_plus, ee_pow. change (bpow radix2 4) with 16. pose proof (pos_INR (length a)). pose proof ee_small. assert (0 <= INR (length a) * ee) by (apply Rmult_le_pos; lra). lra.
Qed.
Print Assumptions C130_distance.
(** The squared distance to the chosen arm exceeds that to any other arm by at most n 2^-48 of it and n 2^-1072. *)
Theorem C130_nearest : forall total arms x, (forall l, added l (total l)) -> arms <> [] -> moderate x -> (forall arm, In arm arms -> length arm = length x /\ moderate arm) ->
  exists arm, round_bandit total arms x = Ok arm /\ In arm arms /\
  forall other, In other arms -> real_distance arm x * real_distance arm x <=
    (1 + INR (length x) * bpow radix2 (-48)) * (real_distance other x * real_distance other x) + INR (length x) * bpow radix2 (-1072).
Proof.
  intros total arms x Ht NE Hx Ha. assert (Nu : forall y, moderate y -> numbers y) by (intros y (_ & _ & H) v Hv; now apply H).
  destruct (round_bandit_least total arms x Ht NE (Nu x Hx)) as (i & arm & R & Ni & M); [intros arm Hin; apply Nu; now apply Ha|].
  assert (Hin : In arm arms) by now apply nth_error_In in Ni. exists arm. split; [exact R|]. split; [exact Hin|]. intros other Ho. destruct (Ha arm Hin) as [L1 M1]. destruct (Ha other Ho) as [L2 M2].
  apply (not_farther total arm other x Ht M1 M2 Hx L1 L2). destruct (In_nth_error _ _ Ho) as [j Hj]. destruct (M j other Hj) as [Q _]. unfold ext in Q.
  rewrite (proj1 (distance_near total arm x Ht M1 Hx L1)), (proj1 (distance_near total other x Ht M2 Hx L2)) in Q. exact Q.
Qed.
Print Assumptions C130_nearest.
(** So an arm that is nearer than every other by more than that is chosen. *)
Theorem C130_chosen : forall total arms x arm, (forall l, added l (total l)) -> moderate x -> (forall arm, In arm arms -> length arm = length x /\ moderate arm) -> In arm arms ->
  (forall other, In other arms -> other <> arm ->
    (1 + INR (length x) * bpow radix2 (-48)) * (real_distance arm x * real_distance arm x) + INR (length x) * bpow radix2 (-1072) < real_distance other x * real_distance other x) ->
  round_bandit total arms x = Ok arm.
Proof.
  intros total arms x arm Ht Hx Ha Hin H. destruct (C130_nearest total arms x Ht) as (c & R & Hc & M); [intros ->; destruct Hin | exact Hx | exact Ha|]. rewrite R. f_equal.
  destruct (Classical_Prop.classic (c = arm)) as [E|E]; [exact E|]. exfalso. specialize (H c Hc E). specialize (M arm Hin). lra.
Qed.
Print Assumptions C130_chosen.
(** That the arm is exactly the nearest one: 2^60 is nearer to 1 than to 0, but the two distances are the same double. *)
Theorem C130_nearest_refuted : exists total arms x arm other, (forall l, added l (total l)) /\ moderate x /\ (forall arm, In arm arms -> length arm = length x /\ moderate arm) /\
  round_bandit total arms x = Ok arm /\ In other arms /\ real_distance other x < real_distance arm x.
Proof.
  assert (O : forall k e, (Z.abs k <= 1)%Z -> (0 <= e <= 60)%Z -> moderate [lit k e] /\ val (lit k e) = IZR k * bpow radix2 e).
  { intros k e Hk He. destruct (lit_ok k e) as [N V]; [lia | lia|]. split; [|exact V]. split; [cbn; lia|]. split; [cbn; lia|]. intros v [<-|[]]. split; [exact N|]. rewrite V, Rabs_mult, <- abs_IZR, (Rabs_pos_eq (bpow radix2 e)) by apply bpow_ge_0.
    apply Rle_trans with (1 * bpow radix2 e); [apply Rmult_le_compat_r; [apply bpow_ge_0 | now apply IZR_le]|]. rewrite Rmult_1_l. apply bpow_le. lia. }
  exists from_left, [[lit 0 0]; [lit 1 0]], [lit 1 60], [lit 0 0], [lit 1 0]. split; [exact from_left_added|]. split; [apply O; lia|].
  split; [intros arm [<-|[<-|[]]]; (split; [reflexivity | apply O; lia])|]. split.
  - unfold round_bandit. cbn [map]. replace (argmin_f _) with (Ok 0%nat) by (vm_compute; reflexivity). reflexivity.
  - split; [right; left; reflexivity|]. unfold real_distance. cbn [combine map rsum fst snd]. apply sqrt_lt_1_alt. destruct (O 0%Z 0%Z) as [_ ->]; [lia | lia|]. destruct (O 1%Z 0%Z) as [_ ->]; [lia | lia|]. destruct (O 1%Z 60%Z) as [_ ->]; [lia | lia|].
    change (bpow radix2 0) with 1. change (bpow radix2 60) with 1152921504606846976. lra.
Qed.
Print Assumptions C130_nearest_refuted.

(** Two arms at the distances 13 and 5: the second is chosen. *)
Example C130_nonvacuous : let arms := [[of_Z 5; of_Z 12]; [of_Z 3; of_Z 4]] in let x := [of_Z 0; of_Z 0] in
  moderate x /\ (forall arm, In arm arms -> length arm = length x /\ moderate arm) /\ map B2SF (map (fun arm => distance from_left arm x) arms) = map B2SF [of_Z 13; of_Z 5] /\
  round_bandit from_left arms x = Ok [of_Z 3; of_Z 4].
Proof.
  cbv zeta. assert (B : forall k j, (Z.abs k <= 16)%Z -> (Z.abs j <= 16)%Z -> moderate [of_Z k; of_Z j]).
  { assert (O : forall k, (Z.abs k <= 16)%Z -> number (of_Z k) /\ Rabs (val (of_Z k)) <= bpow radix2 400).
    { intros k Hk. destruct (of_Z_ok k) as [N V]; [lia|]. split; [exact N|]. rewrite V, <- abs_IZR. apply Rle_trans with 16; [now apply IZR_le | change 16 with (bpow radix2 4); apply bpow_le; lia]. }
    intros k j Hk Hj. split; [cbn; lia|]. split; [cbn; lia|]. intros v [<-|[<-|[]]]; now apply O. }
  split; [apply B; lia|]. split; [intros arm [<-|[<-|[]]]; (split; [reflexivity | apply B; lia])|]. split; [vm_compute; reflexivity|].
  unfold round_bandit. cbn [map]. replace (argmin_f _) with (Ok 1%nat) by (vm_compute; reflexivity). reflexivity.
Qed.
