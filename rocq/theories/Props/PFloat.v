(** C93-C95: designs, rounding and normalisation in double precision; C55 in double precision. *)
From Coq Require Import List ZArith Bool Reals Lra Lia.
From Flocq Require Import Core IEEE754.BinarySingleNaN.
From Verif.Model Require Import Py Float.
From Verif.Spec Require Import FloatSpec.
From Verif.Proof Require Import FloatP.
Import ListNotations.
Local Open Scope R_scope.

(** * C93: initial designs stay in the box although the coordinates are rounded *)

(** Random designs: whatever is drawn from [0, 1), every coordinate is in its interval, end points included. *)
Theorem C93_random : forall (u : nat -> nat -> float) (bounds : list (float * float)) (n : nat),
  Forall interval bounds -> Forall no_overflow bounds -> (forall i k, unit_draw (u i k)) ->
  exists rows, samples_uniform u bounds n = Ok rows /\ length rows = n /\ Forall (fun row => Forall2 inside bounds row) rows.
Proof. exact samples_uniform_ok. Qed.
Print Assumptions C93_random.

(** An interval whose width overflows is refused. *)
Theorem C93_overflow : forall (u : nat -> nat -> float) bounds n, Forall interval bounds -> ~ Forall no_overflow bounds ->
  samples_uniform u bounds n = Raise OverflowError.
Proof. exact samples_uniform_overflow. Qed.
Print Assumptions C93_overflow.

(** Latin and Sobol designs: the same for unit designs with entries in [0, 1). *)
Theorem C93_latin_sobol : forall (unit : list (list float)) (bounds : list (float * float)),
  Forall interval bounds -> Forall no_overflow bounds -> Forall (fun row => length row = length bounds /\ Forall unit_draw row) unit ->
  length (samples_scaled unit bounds) = length unit /\ Forall (fun row => Forall2 inside bounds row) (samples_scaled unit bounds).
Proof. exact samples_scaled_ok. Qed.
Print Assumptions C93_latin_sobol.

(** 1 must not be drawn: with it the coordinate can be above the upper bound. *)
Theorem C93_one_refuted : exists b : float * float, interval b /\ no_overflow b /\ flt (snd b) (scale b (of_Z 1)) = true.
Proof.
  exists (of_Z (-1), lit (-1) (-60)). destruct (of_Z_ok (-1)) as [A B]; [lia|]. destruct (lit_ok (-1) (-60)) as [C D]; [lia|lia|].
  split; [|split; reflexivity]. split; [exact A|]. split; [exact C|]. cbn [fst snd]. rewrite B, D. simpl. lra.
Qed.
Print Assumptions C93_one_refuted.
(** ... and a Latin design on an interval of overflowing width contains infinities *)
Theorem C93_latin_overflow_refuted : exists b x, interval b /\ unit_draw x /\ ~ number (scale b x).
Proof.
  exists (lit (-1) 1023, lit 1 1023), (lit 1 (-1)). split; [|split].
  - split; [reflexivity|]. split; [reflexivity|]. cbn [fst snd]. apply (flt_le (lit (-1) 1023) (lit 1 1023)); reflexivity.
  - destruct lit_half as [A B]. split; auto. rewrite B. lra.
  - intro H. discriminate H.
Qed.
Print Assumptions C93_latin_overflow_refuted.

(** Grid designs: the coordinates used for one variable start at the lower bound, never decrease, end at the upper bound,
    and all of them are in the interval. *)
Theorem C93_grid : forall (lo hi : float) (n : nat),
  interval (lo, hi) -> no_overflow (lo, hi) -> bpow radix2 (-960) <= val hi - val lo -> (2 <= n)%nat -> (Z.of_nat n <= 2 ^ 50)%Z ->
  exists first middle, linspace lo hi n = first :: middle ++ [hi] /\ length middle = (n - 2)%nat /\ val first = val lo /\
    Forall (inside (lo, hi)) (linspace lo hi n) /\
    (forall i j x y, nth_error (linspace lo hi n) i = Some x -> nth_error (linspace lo hi n) j = Some y -> (i <= j)%nat -> val x <= val y).
Proof. exact linspace_ok. Qed.
Print Assumptions C93_grid.
(** one point per variable: the lower bound *)
Theorem C93_grid_one : forall lo hi : float, number lo -> no_overflow (lo, hi) -> exists x, linspace lo hi 1 = [x] /\ number x /\ val x = val lo.
Proof.
  intros lo hi Hl Hn. destruct (linspace_one lo hi Hl Hn) as (A & B & C). eexists. split; [exact A|]. split; [exact B|exact C].
Qed.
Print Assumptions C93_grid_one.
(** The condition on the width is needed: three times the smallest positive double, six points. *)
Theorem C93_grid_subnormal_refuted : exists (b : float * float) x, interval b /\ no_overflow b /\ In x (linspace (fst b) (snd b) 6) /\ flt (snd b) x = true.
Proof.
  exists (f0, lit 3 (-1074)), (linspace_at f0 (lit 3 (-1074)) 6 4). split; [|split; [reflexivity|split]].
  - split; [reflexivity|]. split; [reflexivity|]. cbn [fst snd]. apply (flt_le f0 (lit 3 (-1074))); reflexivity.
  - cbn [fst snd]. unfold linspace. apply in_map. apply in_seq. lia.
  - vm_compute. reflexivity.
Qed.
Print Assumptions C93_grid_subnormal_refuted.

(** The interval [1/10, 7/10] as Python reads it, and its draws: the width is rounded, the last draw gives exactly the upper
    bound or less. *)
Example C93_nonvacuous : exists b u, interval b /\ no_overflow b /\ unit_draw u /\ bpow radix2 (-960) <= val (snd b) - val (fst b) /\
  val (fst b) < val (fadd (fst b) (fmul (fsub (snd b) (fst b)) u)).
Proof.
  set (lo := lit 7205759403792794 (-56)). set (hi := lit 6305039478318694 (-53)). set (u := lit 9007199254740991 (-53)).
  exists (lo, hi), u.
  destruct (lit_ok 7205759403792794 (-56)) as [A1 A2]; [lia|lia|]. destruct (lit_ok 6305039478318694 (-53)) as [B1 B2]; [lia|lia|].
  destruct (lit_ok 9007199254740991 (-53)) as [D1 D2]; [lia|lia|]. fold lo in A1, A2. fold hi in B1, B2. fold u in D1, D2.
  assert (V : val lo < val hi) by (rewrite A2, B2; simpl; lra).
  split; [split; [exact A1|split; [exact B1|cbn [fst snd]; lra]]|]. split; [reflexivity|].
  split; [split; [exact D1|rewrite D2; simpl; lra]|]. cbn [fst snd]. split.
  - apply Rle_trans with (bpow radix2 (-2)); [apply bpow_le; lia|]. rewrite A2, B2. simpl. lra.
  - apply flt_true; auto; vm_compute; reflexivity.
Qed.

(** * C94: round_optimum in double precision *)

(** continuous variables: exactly the projection *)
Theorem C94_continuous : forall lo hi x : float, interval (lo, hi) -> number x ->
  inside (lo, hi) (round_continuous lo hi x) /\
  (val lo <= val x <= val hi -> round_continuous lo hi x = x) /\
  (forall y, val lo <= y <= val hi -> Rabs (val (round_continuous lo hi x) - val x) <= Rabs (y - val x)).
Proof. exact round_continuous_ok. Qed.
Print Assumptions C94_continuous.
(** ... but NaN is not moved into the interval *)
Theorem C94_nan_refuted : forall lo hi : float, nan_p (round_continuous lo hi B754_nan) = true.
Proof. intros lo hi. unfold round_continuous. destruct lo, hi; reflexivity. Qed.
Print Assumptions C94_nan_refuted.

(** discrete variables: always a value of the domain (even for NaN and infinities), the value itself for values of the
    domain, and the nearest one up to the rounding of the two distances *)
Theorem C94_discrete_member : forall (dom : list float) (x : float), dom <> [] -> exists r, round_discrete dom x = Ok r /\ In r dom.
Proof. intros dom x H. destruct (round_discrete_ok dom x H) as (r & A & B & _). exists r. auto. Qed.
Print Assumptions C94_discrete_member.
Theorem C94_discrete_fixes : forall (dom : list float) (x y : float), number x -> (forall v, In v dom -> number v) -> In y dom -> val y = val x ->
  exists r, round_discrete dom x = Ok r /\ In r dom /\ val r = val x.
Proof. exact discrete_fixes. Qed.
Print Assumptions C94_discrete_fixes.
Theorem C94_discrete_nearest : forall (dom : list float) (x : float), dom <> [] -> number x -> (forall v, In v dom -> number v /\ no_overflow (x, v)) ->
  exists r, round_discrete dom x = Ok r /\ In r dom /\
    forall v, In v dom -> Rabs (val r - val x) <= (1 + bpow radix2 (-51)) * Rabs (val v - val x).
Proof. exact discrete_nearest. Qed.
Print Assumptions C94_discrete_nearest.
(** exactly the nearest one: false, the distances of 0 and 1 to 2^60 are the same double *)
Theorem C94_discrete_nearest_refuted : exists (dom : list float) (x r v : float), number x /\ (forall w, In w dom -> number w /\ no_overflow (x, w)) /\
  round_discrete dom x = Ok r /\ In v dom /\ Rabs (val v - val x) < Rabs (val r - val x).
Proof.
  exists [of_Z 0; of_Z 1], (lit 1 60), (of_Z 0), (of_Z 1).
  split; [reflexivity|]. split; [intros w [<-|[<-|[]]]; split; reflexivity|]. split; [vm_compute; reflexivity|].
  split; [right; left; reflexivity|].
  rewrite (proj2 (of_Z_ok 0 ltac:(lia))), (proj2 (of_Z_ok 1 ltac:(lia))), (proj2 (lit_ok 1 60 ltac:(lia) ltac:(lia))).
  simpl bpow. rewrite !Rabs_left by lra. lra.
Qed.
Print Assumptions C94_discrete_nearest_refuted.

(** categorical variables: 1 at the first greatest entry, 0 elsewhere *)
Theorem C94_categorical : forall x : list float, x <> [] -> exists i, (i < length x)%nat /\
  round_categorical x = Ok (map (fun j => of_Z (if Nat.eqb j i then 1 else 0)) (seq 0 (length x))) /\
  ((forall v, In v x -> number v) -> exists w, nth_error x i = Some w /\
     forall j v, nth_error x j = Some v -> val v <= val w /\ ((j < i)%nat -> val v < val w)).
Proof. exact round_categorical_ok. Qed.
Print Assumptions C94_categorical.

(** without values or categories there is nothing to round to *)
Theorem C94_refused : forall x, round_discrete [] x = Raise IndexError /\ round_categorical [] = Raise ValueError.
Proof. repeat split. Qed.
Print Assumptions C94_refused.

Example C94_nonvacuous : exists (dom : list float) (x : float), length dom = 3%nat /\ number x /\
  (forall v, In v dom -> number v /\ no_overflow (x, v)) /\ round_discrete dom x = Ok (lit 5 0).
Proof.
  exists [of_Z 1; lit 5 0; lit 9 0], (lit 11 (-1)). split; [reflexivity|]. split; [reflexivity|].
  split; [intros v [<-|[<-|[<-|[]]]]; split; reflexivity|]. unfold round_discrete. cbn [fold_left].
  repeat match goal with |- context [if flt ?a ?b then _ else _] =>
    let v := eval vm_compute in (flt a b) in replace (flt a b) with v by (vm_compute; reflexivity); cbv iota end.
  reflexivity.
Qed.

(** * C95: normalize in double precision *)

(** 'maxmin': everything is between -1 and 1; when the values are not all equal the least ones give exactly -1 and the greatest
    exactly 1, otherwise all give 0 *)
Theorem C95_maxmin : forall Y : list float, Y <> [] -> (forall y, In y Y -> number y) ->
  (forall a b, In a Y -> In b Y -> no_overflow (a, b)) ->
  length (normalize_maxmin Y) = length Y /\
  forall i y z, nth_error Y i = Some y -> nth_error (normalize_maxmin Y) i = Some z ->
    number z /\ -1 <= val z <= 1 /\
    ((exists a b, In a Y /\ In b Y /\ val a <> val b) ->
      ((forall a, In a Y -> val y <= val a) -> val z = -1) /\ ((forall a, In a Y -> val a <= val y) -> val z = 1)) /\
    ((forall a b, In a Y -> In b Y -> val a = val b) -> val z = 0).
Proof. exact normalize_maxmin_ok. Qed.
Print Assumptions C95_maxmin.

(** The order of two values is never reversed, so the smallest stay smallest ... *)
Theorem C95_maxmin_order : forall Y : list float, (forall y, In y Y -> number y) -> (forall a b, In a Y -> In b Y -> no_overflow (a, b)) ->
  forall i j y y' z z', nth_error Y i = Some y -> nth_error Y j = Some y' ->
    nth_error (normalize_maxmin Y) i = Some z -> nth_error (normalize_maxmin Y) j = Some z' -> val y <= val y' -> val z <= val z'.
Proof. exact normalize_maxmin_order. Qed.
Print Assumptions C95_maxmin_order.
(** ... for 'stats' as well, whatever mean and deviation numpy computes, unless a value overflows *)
Theorem C95_stats_order : forall (m s : float) (Y : list float), number m -> number s -> (forall y, In y Y -> number y) ->
  (forall z, In z (normalize_stats m s Y) -> number z) ->
  forall i j y y' z z', nth_error Y i = Some y -> nth_error Y j = Some y' ->
    nth_error (normalize_stats m s Y) i = Some z -> nth_error (normalize_stats m s Y) j = Some z' -> val y <= val y' -> val z <= val z'.
Proof. exact normalize_stats_order. Qed.
Print Assumptions C95_stats_order.
(** ... but different values can become equal *)
Theorem C95_strict_refuted : exists (Y : list float) y y' z, nth_error Y 0 = Some y /\ nth_error Y 1 = Some y' /\ flt y y' = true /\
  (forall y, In y Y -> number y) /\
  option_map B2SF (nth_error (normalize_maxmin Y) 0) = Some z /\ option_map B2SF (nth_error (normalize_maxmin Y) 1) = Some z.
Proof.
  exists [f0; lit 1 (-60); of_Z 1], f0, (lit 1 (-60)). eexists. split; [reflexivity|]. split; [reflexivity|]. split; [reflexivity|].
  split; [intros y [<-|[<-|[<-|[]]]]; reflexivity|]. split; vm_compute; reflexivity.
Qed.
Print Assumptions C95_strict_refuted.
Example C95_nonvacuous : exists Y : list float, length Y = 3%nat /\ (forall y, In y Y -> number y) /\
  (forall a b, In a Y -> In b Y -> no_overflow (a, b)) /\
  map B2SF (normalize_maxmin Y) = map B2SF [lit (-1) 0; of_Z 1; lit (-1) (-1)].
Proof.
  exists [of_Z 3; lit 11 0; of_Z 5]. split; [reflexivity|]. split; [intros y [<-|[<-|[<-|[]]]]; reflexivity|].
  split; [intros a b [<-|[<-|[<-|[]]]] [<-|[<-|[<-|[]]]]; reflexivity | vm_compute; reflexivity].
Qed.

(** * C55: the predicted deviation in double precision is at least the double 1e-5, and a number for every finite variance *)
Theorem C55_double_precision : forall v : float, number v -> number (deviation v) /\ val (lit 5902958103587057 (-69)) <= val (deviation v) /\
  (forall w, number w -> val v <= val w -> val (deviation v) <= val (deviation w)).
Proof. exact deviation_floor. Qed.
Print Assumptions C55_double_precision.
Example C55_nonvacuous_double : exists v : float, number v /\ flt v f0 = true /\ B2SF (deviation v) = B2SF (lit 5902958103587057 (-69)).
Proof. exists (lit (-1) (-70)). split; [reflexivity|]. split; [reflexivity | vm_compute; reflexivity]. Qed.
