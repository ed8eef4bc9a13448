(** C117: what the benchmark functions draw of themselves.  Specification: Spec/BenchPlotSpec.v.  Model: Model/BenchPlot.v. *)
From Coq Require Import List ZArith Lia Reals Lra.
From Verif.Model Require Import Py Bench Plot BenchPlot.
From Verif.Spec Require Import BenchPlotSpec.
From Verif.Proof Require Import Num BenchP PlotP BenchPlotP.
Import ListNotations.
Local Open Scope R_scope.

(** In one dimension: the points of the curve are those lo + i/100 that are below the upper bound, each with the value of the function there
    (plus that point's noise when there is some), in order and none else.  The bounds are those given, else the function's own. *)
Theorem C117_curve : forall f own given noise lo hi, (lo, hi) = match given with Some b => b | None => own end ->
  match noise with Some l => forall i, (i < length l)%nat <-> lo + INR i / 100 < hi | None => True end ->
  exists pts, plot1d f own given noise = Ok pts /\
    forall i x y, nth_error pts i = Some (x, y) <-> x = lo + INR i / 100 /\ x < hi /\ exists e, drawn noise i e /\ y = f x + e.
Proof.
  intros f own given noise lo hi B H. unfold plot1d.
  assert (EB : match given with None => own | Some b => b end = (lo, hi)) by (destruct given; congruence). rewrite EB. cbn [fst snd]. cbv zeta.
  set (X := arange100 lo hi). set (g := fun row => match row with [x] => f x | _ => 0 end).
  destruct (values_column g (map (fun x => [x]) X) noise) as (ys & E & L & V).
  { destruct noise as [l|]; [|exact I]. rewrite map_length. destruct (Nat.lt_trichotomy (length l) (length X)) as [K|[K|K]]; [|exact K|].
    - apply arange100_length, H in K. lia.
    - apply H, arange100_length in K. unfold X in K. lia. }
  rewrite map_length in L. rewrite E, (curves_column X ys L). eexists. split; [reflexivity|]. intros i x y. rewrite combine_nth2. cbn [fst snd]. split.
  - intros [NX NY]. pose proof NX as NX'. apply arange100_nth in NX' as [EX LX]. split; [exact EX|]. split; [exact LX|].
    destruct (V i [x]) as (e & D & N); [now rewrite nth_error_map, NX|]. exists e. split; [exact D|]. cbn in N. congruence.
  - intros (EX & LX & e & D & ->). assert (NX : nth_error X i = Some x) by (apply arange100_nth; auto). split; [exact NX|].
    destruct (V i [x]) as (e' & D' & N); [now rewrite nth_error_map, NX|]. rewrite N. cbn. do 2 f_equal. destruct noise; cbn in D, D'; congruence.
Qed.
Print Assumptions C117_curve.

(** In two dimensions: 100 by 100 equally spaced points from bound to bound; the height in row i and column j is the value of the function
    (plus that point's noise) at the j-th value of the first and the i-th value of the second coordinate, which are what the two arrays of
    coordinates say.  All recorded minima are marked, wherever they are, and nothing else. *)
Theorem C117_contour : forall f b1 b2 m noise, m <> [] -> match noise with Some l => length l = (100 * 100)%nat | None => True end ->
  exists X1 X2 Z, plot2d f b1 b2 m noise = Ok (X1, X2, Z, m) /\ shaped 100 100 X1 /\ shaped 100 100 X2 /\ shaped 100 100 Z /\
    forall i j, (i < 100)%nat -> (j < 100)%nat -> exists e, drawn noise (i * 100 + j) e /\
      entry X1 i j = Some (grade b1 j) /\ entry X2 i j = Some (grade b2 i) /\ entry Z i j = Some (f (grade b1 j) (grade b2 i) + e).
Proof.
  intros f b1 b2 m noise NM H. unfold plot2d. cbv zeta.
  pose proof (linspace100_length (fst b1) (snd b1)) as L1. pose proof (linspace100_length (fst b2) (snd b2)) as L2.
  pose proof (linspace100_nth (fst b1) (snd b1)) as N1. pose proof (linspace100_nth (fst b2) (snd b2)) as N2. fold (grade b1) in N1. fold (grade b2) in N2.
  set (x1 := linspace100 (fst b1) (snd b1)) in *. set (x2 := linspace100 (fst b2) (snd b2)) in *. set (X := mesh x1 x2).
  assert (LX : length X = (100 * 100)%nat) by (unfold X; rewrite mesh_length, L1, L2; reflexivity).
  assert (NX : forall i j, (i < 100)%nat -> (j < 100)%nat -> nth_error X (i * 100 + j) = Some (grade b1 j, grade b2 i)).
  { intros i j I J. rewrite <- L1 at 1. apply mesh_nth; [now apply N1|now apply N2]. }
  destruct (square100_spec (map fst X)) as (Z1 & E1 & S1 & V1); [now rewrite map_length|].
  destruct (square100_spec (map snd X)) as (Z2 & E2 & S2 & V2); [now rewrite map_length|].
  set (g := fun row => match row with [x; y] => f x y | _ => 0 end).
  destruct (values_column g (map (fun p => [fst p; snd p]) X) noise) as (ys & E & L & V).
  { destruct noise as [l|]; [|exact I]. rewrite map_length, LX. exact H. }
  rewrite map_length in L. destruct (square100_spec ys) as (Z3 & E3 & S3 & V3); [now rewrite L|].
  rewrite E1, E2, E, concat_column, E3. cbn [bind].
  assert (EM : marks m = Ok m). { destruct m as [|p [|q m]]; [congruence| |]; reflexivity. } rewrite EM. cbn [bind].
  exists Z1, Z2, Z3. split; [reflexivity|]. split; [exact S1|]. split; [exact S2|]. split; [exact S3|]. intros i j I J. specialize (NX i j I J).
  destruct (V (i * 100 + j)%nat [grade b1 j; grade b2 i]) as (e & D & N); [rewrite nth_error_map, NX; reflexivity|].
  exists e. split; [exact D|]. rewrite V1, V2, V3, !nth_error_map, NX by assumption. auto.
Qed.
Print Assumptions C117_contour.
(** Unlike the curve, the grid goes from bound to bound. *)
Theorem C117_ends : forall b, grade b 0 = fst b /\ grade b 99 = snd b /\ forall k, fst b <= snd b -> (k <= 99)%nat -> fst b <= grade b k <= snd b.
Proof.
  intros b. unfold grade. split; [cbn [INR]; lra|]. rewrite (INR_IZR_INZ 99). change (IZR (Z.of_nat 99)) with 99. split; [lra|]. intros k L K.
  assert (0 <= INR k <= 99). { split; [apply pos_INR|]. replace 99 with (INR 99) by (rewrite INR_IZR_INZ; reflexivity). now apply le_INR. }
  assert (0 <= INR k * ((snd b - fst b) / 99) <= 99 * ((snd b - fst b) / 99)).
  { split; [apply Rmult_le_pos|apply Rmult_le_compat_r]; lra. } lra.
Qed.
Print Assumptions C117_ends.
(** With their own bounds, every marked minimum of every function that can be drawn lies inside the picture. *)
Theorem C117_marks_visible : forall b1 b2 m p, In (b1, b2, m) defaults2d -> In p m -> fst b1 < snd b1 /\ fst b2 < snd b2 /\ within b1 b2 p.
Proof.
  intros b1 b2 m p I J. pose proof PI2_1 as P1. pose proof PI_4 as P2. unfold PI2 in P1. unfold defaults2d in I. unfold within. cbn [In] in I.
  repeat (destruct I as [I|I]; [injection I as <- <- <-; cbn [In] in J; repeat (destruct J as [<-|J]; [cbn [fst snd]; lra|]); destruct J|]). destruct I.
Qed.
Print Assumptions C117_marks_visible.
(** The marks do not depend on the bounds: a user's box may leave them outside. *)
Example C117_nonvacuous :
  (exists pts, plot1d forrester (0, 1) None None = Ok pts /\ nth_error pts 50 = Some (1 / 2, forrester (1 / 2)) /\ nth_error pts 100 = None) /\
  (exists X1 X2 Z, plot2d rosenbrock (2, 3) (2, 3) [(1, 1)] None = Ok (X1, X2, Z, [(1, 1)]) /\ entry Z 0 99 = Some (rosenbrock 3 2)) /\
  ~ within (2, 3) (2, 3) (1, 1).
Proof.
  split; [|split].
  - destruct (C117_curve forrester (0, 1) None None 0 1 eq_refl I) as (pts & E & V). exists pts. split; [exact E|].
    assert (T : forall n, INR n = IZR (Z.of_nat n)) by exact INR_IZR_INZ. split.
    + apply V. rewrite T. change (IZR (Z.of_nat 50)) with 50. split; [lra|]. split; [lra|]. exists 0. split; [reflexivity|lra].
    + destruct (nth_error pts 100) as [[x y]|] eqn:N; [|reflexivity]. apply V in N as (-> & K & _). rewrite T in K. change (IZR (Z.of_nat 100)) with 100 in K. lra.
  - destruct (C117_contour rosenbrock (2, 3) (2, 3) [(1, 1)] None ltac:(discriminate) I) as (X1 & X2 & Z & E & _ & _ & _ & V).
    exists X1, X2, Z. split; [exact E|]. destruct (V 0%nat 99%nat ltac:(lia) ltac:(lia)) as (e & D & _ & _ & N). cbn in D. subst e. rewrite N.
    destruct (C117_ends (2, 3)) as (G0 & G1 & _). rewrite G0, G1. cbn [fst snd]. f_equal. lra.
  - unfold within. cbn [fst snd]. lra.
Qed.
