(** C65, C77: the benchmark functions.  Specification: Spec/BenchSpec.v.  Model: Model/Bench.v. *)
From Coq Require Import Reals List Lra.
From Verif.Model Require Import Bench.
From Verif.Spec Require Import BenchSpec.
From Verif.Proof Require Import BenchP BenchP2 BenchP3 EggP.
Import ListNotations.
Local Open Scope R_scope.

(** ---------------------------------------------------------------- C65 *)
(** The documented minimum is right. *)
Theorem C65_rosenbrock : minimum_at (on_plane rosenbrock) anywhere 0 (fun p => p = (1, 1)).
Proof. exact rosenbrock_min. Qed.
Print Assumptions C65_rosenbrock.
Theorem C65_powers : minimum_at (on_plane powers) anywhere 0 (fun p => p = (0, 0)).
Proof. exact powers_min. Qed.
Print Assumptions C65_powers.
Theorem C65_goldstein : minimum_at (on_plane goldstein) anywhere 3 (fun p => p = (0, -1)).
Proof. exact goldstein_min. Qed.
Print Assumptions C65_goldstein.
Theorem C65_alpine1 : forall d, (forall x, 0 <= alpine1 x) /\ alpine1 (repeat 0 d) = 0.
Proof. exact alpine1_min. Qed.
Print Assumptions C65_alpine1.
Theorem C65_ackley : forall d, (0 < d)%nat -> minimum_at ackley (fun x => length x = d) 0 (fun x => x = repeat 0 d).
Proof. exact ackley_min. Qed.
Print Assumptions C65_ackley.
(** gSobol documents no minimum; it is this. *)
Theorem C65_gSobol : forall a, Forall (fun v => 0 < v) a ->
  minimum_at (gSobol a) (fun x => length x = length a) (lprod (map (fun v => v / (1 + v)) a)) (fun x => x = repeat (/ 2) (length a)).
Proof. exact gSobol_min. Qed.
Print Assumptions C65_gSobol.
(** branin: all minimisers of the plane; the documented ones are k = -1, 0, 1 and the documented fmin is the minimum to six digits. *)
Theorem C65_branin : minimum_at (on_plane branin) anywhere (5 / (4 * PI))
  (fun p => exists k : Z, p = ((2 * IZR k + 1) * PI, 51 / 40 * (2 * IZR k + 1) ^ 2 - 5 * (2 * IZR k + 1) + 6)).
Proof. exact branin_min. Qed.
Print Assumptions C65_branin.
Theorem C65_branin_documented :
  on_plane branin (- PI, 12275 / 1000) = 5 / (4 * PI) /\ on_plane branin (PI, 2275 / 1000) = 5 / (4 * PI) /\ on_plane branin (3 * PI, 2475 / 1000) = 5 / (4 * PI) /\
  Rabs (5 / (4 * PI) - 397887 / 1000000) < 1 / 1000000 /\ Rabs (3 * PI - 942478 / 100000) < 1 / 10000.
Proof.
  destruct branin_min as (_ & _ & M). destruct branin_numbers as (A & _ & B).
  repeat split; try assumption; apply M; try exact I; [exists (-1)%Z|exists 0%Z|exists 1%Z]; f_equal; lra.
Qed.
Print Assumptions C65_branin_documented.
(** mccormick: on the documented box the documented point and value are the minimum to four digits; on the plane there is none. *)
Theorem C65_mccormick :
  minimum_at (on_plane mccormick) (in_box (-15 / 10) 4 (-3) 4) (- (sqrt 3 / 2) - PI / 3) (fun p => p = (1 / 2 - PI / 3, - (1 / 2) - PI / 3)) /\
  Rabs (- (sqrt 3 / 2) - PI / 3 - - (19133 / 10000)) < 1 / 10000 /\ Rabs (1 / 2 - PI / 3 - - (54719 / 100000)) < 1 / 10000 /\
  Rabs (- (1 / 2) - PI / 3 - - (154719 / 100000)) < 1 / 10000.
Proof. split; [exact mccormick_min|exact mccormick_numbers]. Qed.
Print Assumptions C65_mccormick.
Theorem C65_mccormick_no_minimum_on_the_plane : forall v, exists p, on_plane mccormick p < v.
Proof. exact mccormick_unbounded. Qed.
Print Assumptions C65_mccormick_no_minimum_on_the_plane.
(** sixhumpcamel: both documented points have the documented value to four digits, and it is the infimum to four digits. *)
Theorem C65_sixhumpcamel :
  (forall x y, - (103164 / 100000) <= sixhumpcamel x y) /\
  sixhumpcamel (898 / 10000) (- (7126 / 10000)) < - (10316 / 10000) /\ sixhumpcamel (- (898 / 10000)) (7126 / 10000) < - (10316 / 10000).
Proof.
  destruct camel_documented as [A _]. split; [exact camel_lower|]. split; [assumption|].
  pose proof (camel_symmetric (898 / 10000) (- (7126 / 10000))) as S0. rewrite Ropp_involutive in S0. rewrite S0. assumption.
Qed.
Print Assumptions C65_sixhumpcamel.
(** The documented minimum is wrong.  beale documents 0 at (0, 0) on the box [-1, 1] x [-1, 1]; the minimum is -404 and the plane has none. *)
Theorem C65_beale_refuted : minimum_at (on_plane beale) (in_box (-1) 1 (-1) 1) (-404) (fun p => p = (-1, -1)) /\
  (forall v, exists p, on_plane beale p < v) /\ on_plane beale (0, 0) = -1.
Proof. split; [exact beale_min|]. split; [exact beale_unbounded|]. unfold on_plane, beale; simpl; lra. Qed.
Print Assumptions C65_beale_refuted.
(** dropwave documents 0 at (0, 0): that point is the only maximiser, with value 1. *)
Theorem C65_dropwave_refuted : (forall x y, 0 <= dropwave x y <= 1) /\ (forall x y, dropwave x y = 1 <-> x = 0 /\ y = 0) /\ dropwave (PI / 12) 0 = 0.
Proof. split; [intros; apply dropwave_range|]. split; [intros; apply dropwave_range|exact dropwave_zero]. Qed.
Print Assumptions C65_dropwave_refuted.
(** cosines documents -1.59622468 at (0.31426205, 0.30249864). *)
Theorem C65_cosines_refuted : minimum_at (on_plane cosines) anywhere (- (16 / 10)) (fun p => p = (5 / 16, 5 / 16)).
Proof. exact cosines_min. Qed.
Print Assumptions C65_cosines_refuted.
(** forrester documents "approximately" -6 at 0.78 on [0, 1]: the minimum lies between -6.03 and -6.01, the documented point misses it by
    more than 0.2. *)
Theorem C65_forrester : (forall x, 0 <= x <= 1 -> - (603 / 100) <= forrester x) /\ forrester (757 / 1000) < - (601 / 100) /\ - (58 / 10) < forrester (78 / 100).
Proof. split; [exact forrester_lower|exact forrester_values]. Qed.
Print Assumptions C65_forrester.
(** alpine2 documents -2.808^d at (7.917, ..., 7.917) on [1, 10]^d: right to four digits per factor. *)
Theorem C65_alpine2 : (forall x, Forall (fun v => 1 <= v <= 10) x -> - ((28082 / 10000) ^ length x) <= alpine2 x) /\
  (forall d, alpine2 (repeat (7917 / 1000) d) <= - ((2808 / 1000) ^ d)).
Proof. split; [exact alpine2_lower|exact alpine2_value]. Qed.
Print Assumptions C65_alpine2.
(** the second coordinate has its own cosine *)
Theorem C65_cosines_coordinates : forall x y, cosines x y = cosines y x /\ (cosines x y - cosines x (5 / 16) = (cosines (5 / 16) y - cosines (5 / 16) (5 / 16)))%R.
Proof. intros x y. unfold cosines. cbv zeta. split; field. Qed.
Print Assumptions C65_cosines_coordinates.
(** the minimum of eggholder on its box is its documented value to the digit given, it is reached next to the documented point and nowhere else *)
Theorem C65_eggholder :
  (forall x1 x2, -512 <= x1 <= 512 -> -512 <= x2 <= 512 -> - 959.6407 <= eggholder x1 x2) /\
  eggholder 512 404.2319 < - 959.6406 /\
  (forall x1 x2, -512 <= x1 <= 512 -> -512 <= x2 <= 512 -> eggholder x1 x2 < - 959.6406 -> Rabs (x1 - 512) <= 0.01 /\ Rabs (x2 - 404.2319) <= 0.01).
Proof.
  split; [intros; now apply egg_near|]. split; [exact egg_value|]. intros x1 x2 A B. apply (egg_near x1 x2 A B).
Qed.
Print Assumptions C65_eggholder.
Example C65_nonvacuous : (0 < 3)%nat /\ Forall (fun v => 0 < v) [1; 2; 1 / 2] /\ rosenbrock 0 0 = 1 /\ goldstein 0 0 = 600 /\ gSobol [1; 3] [0; / 2] = 9 / 8.
Proof.
  split; [repeat constructor|]. split; [repeat constructor; lra|]. unfold rosenbrock, goldstein, gSobol, lprod; simpl. repeat split; try lra.
  rewrite (Rabs_left (4 * 0 - 2)), (Rabs_right (4 * / 2 - 2)); lra.
Qed.

(** ---------------------------------------------------------------- C77 *)
(** One row per point, one number per row: the value of the function there plus that point's noise. *)
Theorem C77_one_value_per_point : forall f X e, (e = None \/ exists l, e = Some l /\ length l = length X) ->
  length (values f true X e) = length X /\ Forall (fun r => length r = 1%nat) (values f true X e).
Proof. exact values_shape. Qed.
Print Assumptions C77_one_value_per_point.
Theorem C77_its_own_value : forall f X i x, nth_error X i = Some x ->
  (forall b, nth_error (values f b X None) i = Some [f x]) /\
  (forall l e, nth_error l i = Some e -> nth_error (values f true X (Some l)) i = Some [f x + e]).
Proof. intros f X i x H. split; [intros b; exact (values_noiseless f b X i x H)|]. intros l e K. exact (values_noisy f X l i x e H K). Qed.
Print Assumptions C77_its_own_value.
(** alpine1 with noise returns a square matrix: entry (i, j) is the value at point i plus the noise of point j. *)
Theorem C77_noisy_alpine1_refuted : forall X l, length l = length X ->
  length (values alpine1 false X (Some l)) = length X /\ Forall (fun r => length r = length X) (values alpine1 false X (Some l)) /\
  (forall i j x e, nth_error X i = Some x -> nth_error l j = Some e ->
   exists r, nth_error (values alpine1 false X (Some l)) i = Some r /\ nth_error r j = Some (alpine1 x + e)).
Proof. intros X l L. destruct (values_alpine1 X l L) as [A B]. split; [exact A|]. split; [exact B|]. intros i j x e. exact (values_alpine1_nth X l i j x e). Qed.
Print Assumptions C77_noisy_alpine1_refuted.
Example C77_nonvacuous : length [1; 2] = length [[0; 0]; [0; 0]] /\
  ~ Forall (fun r => length r = 1%nat) (values alpine1 false [[0; 0]; [0; 0]] (Some [1; 2])).
Proof. split; [reflexivity|]. intros F. inversion F as [|r l A _]. discriminate A. Qed.
