From Coq Require Import Reals List Lra Lia Machin.
From Verif.Model Require Import Bench.
From Verif.Spec Require Import BenchSpec.
From Verif.Proof Require Import BenchP.
Import ListNotations.
Local Open Scope R_scope.

Lemma PI_bounds : 314159 / 100000 < PI < 3141593 / 1000000.
Proof.
  pose proof (PI_2_3_7_ineq 4) as [L U]. cbv [sum_f_R0 Nat.mul Nat.add tg_alt PI_2_3_7_tg Ratan_seq] in L, U. simpl INR in L, U. simpl pow in L, U.
  split; lra.
Qed.
Lemma sqrt_bounds a lo hi : 0 <= lo -> 0 <= hi -> lo * lo < a < hi * hi -> lo < sqrt a < hi.
Proof.
  intros L H [A B]. split.
  - rewrite <- (sqrt_square lo L). apply sqrt_lt_1; nra.
  - rewrite <- (sqrt_square hi H). apply sqrt_lt_1; nra.
Qed.

(** ---- beale *)
Lemma beale_min : minimum_at (on_plane beale) (in_box (-1) 1 (-1) 1) (-404) (fun p => p = (-1, -1)).
Proof.
  split; [exists (-1, -1); split; [unfold in_box; simpl; lra|reflexivity]|]. 
  assert (G : forall x y, -1 <= x <= 1 -> -1 <= y <= 1 -> (y - x ^ 2) ^ 2 <= 4 /\ (x - 1) ^ 2 <= 4).
  { intros x y X Y. split; [|nra]. assert (0 <= x ^ 2 <= 1) by nra. set (q := x ^ 2) in *. nra. }
  split.
  - intros [x y] [X Y]. unfold on_plane, beale; simpl fst in *; simpl snd in *. destruct (G x y X Y). lra.
  - intros [x y] [X Y]. unfold on_plane, beale; simpl fst in *; simpl snd in *. destruct (G x y X Y) as [A B]. split.
    + intros H. assert (A1 : (y - x ^ 2) ^ 2 = 4) by lra. assert (B1 : (x - 1) ^ 2 = 4) by lra.
      assert (x = -1) by nra. subst x. replace ((-1) ^ 2) with 1 in A1 by ring. assert (y = -1) by nra. subst y. reflexivity.
    + intros [= -> ->]. ring.
Qed.
Lemma beale_unbounded : forall v, exists p, on_plane beale p < v.
Proof.
  intros v. exists (1, 1 + (1 + Rabs v)). unfold on_plane, beale. simpl fst; simpl snd. pose proof (Rabs_pos v). pose proof (Rle_abs (- v)) as A. rewrite Rabs_Ropp in A. nra.
Qed.

(** ---- dropwave *)
Lemma dropwave_range x y : 0 <= dropwave x y <= 1 /\ (dropwave x y = 1 <-> x = 0 /\ y = 0).
Proof.
  unfold dropwave. set (q := x ^ 2 + y ^ 2). assert (Q : 0 <= q) by (unfold q; pose proof (pow2_ge_0 x); pose proof (pow2_ge_0 y); lra).
  pose proof (COS_bound (12 * sqrt q)) as C.
  replace (- (- (1 + cos (12 * sqrt q)) / (5 / 10 * q + 2))) with ((1 + cos (12 * sqrt q)) / (5 / 10 * q + 2)) by (field; lra).
  assert (D : 0 < 5 / 10 * q + 2) by lra. set (d := 5 / 10 * q + 2) in *. set (c := cos (12 * sqrt q)) in *.
  split; [split|split].
  - apply Rmult_le_pos; [lra|left; now apply Rinv_0_lt_compat].
  - apply Rmult_le_reg_r with d; [exact D|]. unfold Rdiv. rewrite Rmult_assoc, Rinv_l by lra. unfold d. lra.
  - intros H. assert (E : 1 + c = d). { apply Rmult_eq_compat_r with (r := d) in H. unfold Rdiv in H. rewrite Rmult_assoc, Rinv_l in H by lra. lra. }
    assert (Z : q = 0) by (unfold d in E; lra). unfold q in Z. pose proof (pow2_ge_0 x). pose proof (pow2_ge_0 y). split; apply sq_zero; lra.
  - intros [-> ->]. assert (Z : q = 0) by (unfold q; ring). unfold c, d. rewrite Z, sqrt_0, Rmult_0_r, cos_0. field.
Qed.
Lemma dropwave_zero : dropwave (PI / 12) 0 = 0.
Proof.
  unfold dropwave. replace ((PI / 12) ^ 2 + 0 ^ 2) with ((PI / 12) * (PI / 12)) by ring. rewrite sqrt_square by (pose proof PI_RGT_0; lra).
  replace (12 * (PI / 12)) with PI by field. rewrite cos_PI. replace (1 + -1) with 0 by ring. unfold Rdiv. ring.
Qed.

(** ---- cosines *)
Lemma cosines_min : minimum_at (on_plane cosines) anywhere (- (16 / 10)) (fun p => p = (5 / 16, 5 / 16)).
Proof.
  split; [exists (5 / 16, 5 / 16); split; [exact I|reflexivity]|].
  split; intros [x y] _; unfold on_plane, cosines; simpl fst; simpl snd; set (u := 16 / 10 * x - 5 / 10); set (v := 16 / 10 * y - 5 / 10);
    pose proof (COS_bound (3 * PI * u)) as C1; pose proof (COS_bound (3 * PI * v)) as C2; pose proof (pow2_ge_0 u) as U; pose proof (pow2_ge_0 v) as V.
  - lra.
  - split.
    + intros H. assert (U0 : u ^ 2 = 0) by lra. assert (V0 : v ^ 2 = 0) by lra. apply sq_zero in U0, V0. unfold u, v in *. f_equal; lra.
    + intros [= -> ->]. assert (u = 0) as -> by (unfold u; lra). assert (v = 0) as -> by (unfold v; lra). rewrite !Rmult_0_r, cos_0. lra.
Qed.

(** ---- branin *)
Lemma cos_minus_one x : cos x = -1 <-> exists k : Z, x = (2 * IZR k + 1) * PI.
Proof.
  split.
  - intros H. replace x with (2 * (x / 2)) in H by lra. rewrite cos_2a_cos in H. assert (Z : cos (x / 2) = 0) by nra.
    apply cos_eq_0_0 in Z. destruct Z as [k K]. exists k. lra.
  - intros [k ->]. replace ((2 * IZR k + 1) * PI) with (2 * (IZR k * PI + PI / 2)) by lra. rewrite cos_2a_cos.
    rewrite (cos_eq_0_1 (IZR k * PI + PI / 2)) by (now exists k). ring.
Qed.
Lemma branin_min : minimum_at (on_plane branin) anywhere (5 / (4 * PI))
  (fun p => exists k : Z, p = ((2 * IZR k + 1) * PI, 51 / 40 * (2 * IZR k + 1) ^ 2 - 5 * (2 * IZR k + 1) + 6)).
Proof.
  pose proof PI_bounds as [PL PU].
  assert (T : 0 < 1 / (8 * PI) < 1). { split; [apply Rdiv_lt_0_compat; lra|]. apply Rmult_lt_reg_r with (8 * PI); [lra|]. unfold Rdiv. rewrite Rmult_assoc, Rinv_l by lra. lra. }
  assert (V : 5 / (4 * PI) = 10 * (1 / (8 * PI))) by (field; lra).
  assert (S0 : forall k x2, x2 - (51 / 10) / (4 * PI ^ 2) * ((2 * IZR k + 1) * PI) ^ 2 + 5 / PI * ((2 * IZR k + 1) * PI) - 6 = x2 - (51 / 40 * (2 * IZR k + 1) ^ 2 - 5 * (2 * IZR k + 1) + 6)).
  { intros k x2. field. lra. }
  split; [exists (PI, 51 / 40 - 5 + 6); split; [exact I|exists 0%Z; f_equal; ring]|].
  split; intros [x y] _; unfold on_plane, branin; simpl fst; simpl snd; pose proof (COS_bound x) as C; rewrite V; set (t := 1 / (8 * PI)) in *.
  - pose proof (pow2_ge_0 (y - 51 / 10 / (4 * PI ^ 2) * x ^ 2 + 5 / PI * x - 6)) as Q. set (q := (y - _ + _ - 6) ^ 2) in *. nra.
  - split.
    + intros H. pose proof (pow2_ge_0 (y - 51 / 10 / (4 * PI ^ 2) * x ^ 2 + 5 / PI * x - 6)) as Q. set (q0 := y - _ + _ - 6) in *.
      assert (C1 : cos x = -1) by nra. assert (Q0 : q0 ^ 2 = 0) by nra. apply sq_zero in Q0. apply cos_minus_one in C1. destruct C1 as [k ->]. exists k.
      unfold q0 in Q0. rewrite S0 in Q0. f_equal. lra.
    + intros [k [= -> ->]]. rewrite S0. rewrite (proj2 (cos_minus_one _)) by (now exists k). unfold t. field. lra.
Qed.
Lemma branin_numbers : Rabs (5 / (4 * PI) - 397887 / 1000000) < 1 / 1000000 /\ 397887 / 1000000 < 5 / (4 * PI) /\ Rabs (3 * PI - 942478 / 100000) < 1 / 10000.
Proof.
  pose proof PI_bounds as [PL PU].
  assert (A : 397887 / 1000000 < 5 / (4 * PI) < 397888 / 1000000).
  { split; apply Rmult_lt_reg_r with (4 * PI); try lra; unfold Rdiv; rewrite ?Rmult_assoc, ?(Rinv_l (4 * PI)) by lra; lra. }
  split; [apply Rabs_def1; lra|]. split; [tauto|]. apply Rabs_def1; lra.
Qed.

(** ---- mccormick *)
Lemma mccormick_split x y : mccormick x y = sin (x + y) + (x + y) / 2 + (x - y - 1) ^ 2.
Proof. unfold mccormick. field. Qed.
Lemma sin_shift t : sin (t - 2 * (PI / 3)) = - (1 / 2) * sin t - sqrt 3 / 2 * cos t.
Proof. rewrite sin_minus, cos_2PI3, sin_2PI3. field. Qed.
Lemma mccormick_left w : 0 < w -> w <= 241 / 100 -> 0 < sqrt 3 * (1 - cos w) - w + sin w.
Proof.
  intros W0 W1. pose proof PI_bounds as [PL PU]. pose proof (sqrt_bounds 3 (173205 / 100000) (1732051 / 1000000) ltac:(lra) ltac:(lra) ltac:(lra)) as [SL SU].
  destruct (Rle_lt_dec w (2 * (PI / 3))) as [L|L].
  - set (phi := fun w => sqrt 3 * (1 - cos w) - w + sin w). set (dphi := fun w => sqrt 3 * sin w - 1 + cos w).
    assert (D : forall c, derivable_pt_lim phi c (dphi c)).
    { intros c. unfold phi, dphi. replace (sqrt 3 * sin c - 1 + cos c) with (sqrt 3 * (0 - - sin c) - 1 + cos c) by ring.
      apply derivable_pt_lim_plus; [apply derivable_pt_lim_minus|apply derivable_pt_lim_sin].
      - apply derivable_pt_lim_scal. apply (derivable_pt_lim_minus (fct_cte 1) cos); [apply derivable_pt_lim_const|apply derivable_pt_lim_cos].
      - apply derivable_pt_lim_id. }
    destruct (MVT_cor2 phi dphi 0 w W0 (fun c _ => D c)) as (c & E & C1 & C2).
    assert (Z : phi 0 = 0) by (unfold phi; rewrite cos_0, sin_0; ring).
    assert (P : 0 < dphi c).
    { assert (X : dphi c = 2 * sin (c + PI / 6) - 1).
      { unfold dphi. rewrite sin_plus, cos_PI6, sin_PI6. field. }
      rewrite X. assert (1 / 2 < sin (c + PI / 6)); [|lra]. rewrite <- sin_PI6.
      destruct (Rle_lt_dec (c + PI / 6) (PI / 2)) as [H|H].
      - apply sin_increasing_1; lra.
      - rewrite <- (sin_PI_x (c + PI / 6)). apply sin_increasing_1; lra. }
    change (0 < phi w). rewrite Z in E. nra.
  - assert (C : cos w < - (1 / 2)). { pose proof cos_2PI3. replace (- (1 / 2)) with (cos (2 * (PI / 3))) by lra. apply cos_decreasing_1; lra. }
    assert (0 < sin w) by (apply sin_gt_0; lra). nra.
Qed.
Lemma sin_lt t : 0 < t -> sin t < t.
Proof. intros T. apply sin_lt_x. exact T. Qed.
Lemma mccormick_h s : -45 / 10 <= s -> - (sqrt 3 / 2) - PI / 3 <= sin s + s / 2 /\ (sin s + s / 2 = - (sqrt 3 / 2) - PI / 3 -> s = - (2 * (PI / 3))).
Proof.
  intros S0. pose proof PI_bounds as [PL PU]. pose proof (sqrt_bounds 3 (173205 / 100000) (1732051 / 1000000) ltac:(lra) ltac:(lra) ltac:(lra)) as [SL SU].
  set (t := s + 2 * (PI / 3)). replace s with (t - 2 * (PI / 3)) by (unfold t; ring). rewrite sin_shift. pose proof (COS_bound t) as C.
  destruct (Rtotal_order t 0) as [N|[Z|P]].
  - pose proof (mccormick_left (- t) ltac:(lra) ltac:(unfold t; lra)) as M. rewrite cos_neg, sin_neg in M. split; [nra|]. intros H. exfalso. nra.
  - rewrite Z, sin_0, cos_0. split; [lra|]. intros _. lra.
  - pose proof (sin_lt t P) as L. split; [nra|]. intros H. exfalso. nra.
Qed.
Lemma mccormick_min : minimum_at (on_plane mccormick) (in_box (-15 / 10) 4 (-3) 4) (- (sqrt 3 / 2) - PI / 3) (fun p => p = (1 / 2 - PI / 3, - (1 / 2) - PI / 3)).
Proof.
  pose proof PI_bounds as [PL PU].
  split; [exists (1 / 2 - PI / 3, - (1 / 2) - PI / 3); split; [unfold in_box; simpl; lra|reflexivity]|].
  split; intros [x y] [X Y]; unfold on_plane; simpl fst in *; simpl snd in *; rewrite mccormick_split; destruct (mccormick_h (x + y) ltac:(lra)) as [A B];
    pose proof (pow2_ge_0 (x - y - 1)) as Q.
  - lra.
  - split.
    + intros H. specialize (B ltac:(lra)). assert (Q0 : (x - y - 1) ^ 2 = 0) by lra. apply sq_zero in Q0. f_equal; lra.
    + intros [= -> ->]. replace (1 / 2 - PI / 3 + (- (1 / 2) - PI / 3)) with (0 - 2 * (PI / 3)) by lra. rewrite sin_shift, sin_0, cos_0. 
      replace (1 / 2 - PI / 3 - (- (1 / 2) - PI / 3) - 1) with 0 by lra. lra.
Qed.
Lemma mccormick_numbers : Rabs (- (sqrt 3 / 2) - PI / 3 - - (19133 / 10000)) < 1 / 10000 /\ Rabs (1 / 2 - PI / 3 - - (54719 / 100000)) < 1 / 10000 /\ Rabs (- (1 / 2) - PI / 3 - - (154719 / 100000)) < 1 / 10000.
Proof.
  pose proof PI_bounds as [PL PU]. pose proof (sqrt_bounds 3 (173205 / 100000) (1732051 / 1000000) ltac:(lra) ltac:(lra) ltac:(lra)) as [SL SU].
  repeat split; apply Rabs_def1; lra.
Qed.
Lemma mccormick_unbounded : forall v, exists p, on_plane mccormick p < v.
Proof.
  intros v. exists (- (3 + Rabs v), - (3 + Rabs v)). unfold on_plane. simpl fst; simpl snd. rewrite mccormick_split.
  pose proof (SIN_bound (- (3 + Rabs v) + - (3 + Rabs v))). pose proof (Rle_abs (- v)) as A. rewrite Rabs_Ropp in A.
  replace (- (3 + Rabs v) - - (3 + Rabs v) - 1) with (-1) by ring. lra.
Qed.

(** ---- six-hump camel *)
Lemma camel_symmetric x y : sixhumpcamel (- x) (- y) = sixhumpcamel x y.
Proof. unfold sixhumpcamel. field. Qed.
Lemma camel_documented : sixhumpcamel (898 / 10000) (- (7126 / 10000)) < - (10316 / 10000) /\ - (10317 / 10000) < sixhumpcamel (898 / 10000) (- (7126 / 10000)).
Proof. unfold sixhumpcamel. lra. Qed.
(** tangent lines at the documented point; the mixed term is split with weight 1/4 *)
Lemma camel_x x : - (31873 / 1000000) <= x ^ 6 / 3 - 21 / 10 * x ^ 4 + 4 * x ^ 2 - 7126 / 10000 * x - 1 / 8 * (x - 898 / 10000) ^ 2.
Proof.
  set (d := x - 898 / 10000).
  set (q := x ^ 4 / 3 + 898 / 15000 * x ^ 3 + (-21 / 10 + (898 / 10000) ^ 2) * x ^ 2 + (- (42 / 10) * (898 / 10000) + 4 / 3 * (898 / 10000) ^ 3) * x
            + (4 - 1 / 8 - 63 / 10 * (898 / 10000) ^ 2 + 5 / 3 * (898 / 10000) ^ 4)).
  assert (E : x ^ 6 / 3 - 21 / 10 * x ^ 4 + 4 * x ^ 2 - 7126 / 10000 * x - 1 / 8 * (x - 898 / 10000) ^ 2 =
    (4 * (898 / 10000) ^ 2 - 21 / 10 * (898 / 10000) ^ 4 + (898 / 10000) ^ 6 / 3 - 7126 / 10000 * (898 / 10000)) +
    (8 * (898 / 10000) - 84 / 10 * (898 / 10000) ^ 3 + 2 * (898 / 10000) ^ 5 - 7126 / 10000) * d + d ^ 2 * q) by (unfold d, q; field).
  assert (Q : 1 / 10 <= q).
  { pose proof (pow2_ge_0 (x ^ 2 + 898 / 10000 * x - 16 / 5)). pose proof (pow2_ge_0 (x - 24 / 10)). pose proof (pow2_ge_0 x).
    replace q with ((x ^ 2 + 898 / 10000 * x - 16 / 5) ^ 2 / 3 + ((-21 / 10 + (898 / 10000) ^ 2) - (898 / 10000) ^ 2 / 3 + 32 / 15) * x ^ 2
      + ((- (42 / 10) * (898 / 10000) + 4 / 3 * (898 / 10000) ^ 3) + 32 / 15 * (898 / 10000)) * x
      + ((4 - 1 / 8 - 63 / 10 * (898 / 10000) ^ 2 + 5 / 3 * (898 / 10000) ^ 4) - 256 / 75)) by (unfold q; field).
    clear E. set (s := (x ^ 2 + 898 / 10000 * x - 16 / 5) ^ 2) in *. clearbody s. clear q. lra. }
  fold d in E. rewrite E. clear E. pose proof (pow2_ge_0 (d - 15 / 10000)) as D. pose proof (pow2_ge_0 d). assert (d ^ 2 / 10 <= d ^ 2 * q) by (pose proof (pow2_ge_0 d); nra). lra.
Qed.
Lemma camel_z z : 0 <= z -> - (1063751 / 1000000) <= 4 * z ^ 4 - 4 * z ^ 2 - 898 / 10000 * z - 2 * (z - 7126 / 10000) ^ 2.
Proof.
  intros Z. set (d := z - 7126 / 10000).
  set (q := 4 * z ^ 2 + 8 * (7126 / 10000) * z + (12 * (7126 / 10000) ^ 2 - 6)).
  assert (E : 4 * z ^ 4 - 4 * z ^ 2 - 898 / 10000 * z - 2 * (z - 7126 / 10000) ^ 2 =
    (4 * (7126 / 10000) ^ 4 - 4 * (7126 / 10000) ^ 2 - 898 / 10000 * (7126 / 10000)) + (16 * (7126 / 10000) ^ 3 - 8 * (7126 / 10000) - 898 / 10000) * d + d ^ 2 * q)
    by (unfold d, q; field).
  assert (Q : 93 / 1000 <= q) by (unfold q; pose proof (pow2_ge_0 z); lra).
  fold d in E. rewrite E. clear E. pose proof (pow2_ge_0 (d - 48 / 10000)) as D. pose proof (pow2_ge_0 d). assert (d ^ 2 * (93 / 1000) <= d ^ 2 * q) by (pose proof (pow2_ge_0 d); nra). lra.
Qed.
Lemma camel_lower x y : - (103164 / 100000) <= sixhumpcamel x y.
Proof.
  assert (G : forall x z, 0 <= x -> 0 <= z -> - (103164 / 100000) <= (4 - 21 / 10 * x ^ 2 + x ^ 4 / 3) * x ^ 2 - x * z + (- 4 + 4 * z ^ 2) * z ^ 2).
  { clear. intros x z X Z. pose proof (camel_x x). pose proof (camel_z z Z).
    pose proof (pow2_ge_0 (1 / 2 * (x - 898 / 10000) - 2 * (z - 7126 / 10000))) as M.
    replace ((4 - 21 / 10 * x ^ 2 + x ^ 4 / 3) * x ^ 2) with (x ^ 6 / 3 - 21 / 10 * x ^ 4 + 4 * x ^ 2) by field.
    replace ((- 4 + 4 * z ^ 2) * z ^ 2) with (4 * z ^ 4 - 4 * z ^ 2) by ring. lra. }
  specialize (G (Rabs x) (Rabs y) (Rabs_pos _) (Rabs_pos _)). rewrite <- Rabs_mult in G.
  assert (E : forall v, Rabs v ^ 2 = v ^ 2) by (intros v; rewrite RPow_abs; apply Rabs_pos_eq, pow2_ge_0).
  assert (E4 : Rabs x ^ 4 = x ^ 4) by (replace (Rabs x ^ 4) with ((Rabs x ^ 2) ^ 2) by ring; rewrite E; ring).
  rewrite !E, E4 in G. unfold sixhumpcamel. pose proof (Rle_abs (- (x * y))) as A. rewrite Rabs_Ropp in A. lra.
Qed.

(** ---- shapes *)
Lemma values_shape f X e : (e = None \/ exists l, e = Some l /\ length l = length X) -> length (values f true X e) = length X /\ Forall (fun r => length r = 1%nat) (values f true X e).
Proof.
  assert (G : forall (l1 l2 : list R), length l1 = length l2 -> length (returned true l1 l2) = length l1 /\ Forall (fun r => length r = 1%nat) (returned true l1 l2)).
  { intros l1 l2 L. unfold returned. rewrite map_length, combine_length, L, Nat.min_id. split; [reflexivity|]. apply Forall_forall. intros r I.
    apply in_map_iff in I. destruct I as (p & <- & _). reflexivity. }
  intros [->|(l & -> & L)]; unfold values.
  - destruct (G (map f X) (map (fun _ => 0) X)) as [A B]; rewrite ?map_length in *; auto.
  - destruct (G (map f X) l) as [A B]; rewrite ?map_length in *; auto.
Qed.
Lemma values_alpine1 X l : length l = length X -> length (values alpine1 false X (Some l)) = length X /\ Forall (fun r => length r = length X) (values alpine1 false X (Some l)).
Proof.
  intros L. unfold values, returned. rewrite !map_length. split; [reflexivity|]. apply Forall_forall. intros r I. apply in_map_iff in I.
  destruct I as (v & <- & _). now rewrite map_length.
Qed.
Lemma values_noiseless f b X i x : nth_error X i = Some x -> nth_error (values f b X None) i = Some [f x].
Proof.
  revert i. unfold values, returned. induction X as [|x0 X IH]; intros [|i] H; try discriminate; simpl in *.
  - injection H as ->. f_equal. f_equal. ring.
  - apply IH, H.
Qed.
Lemma values_noisy f X l i x e : nth_error X i = Some x -> nth_error l i = Some e -> nth_error (values f true X (Some l)) i = Some [f x + e].
Proof.
  unfold values, returned. revert X l. induction i as [|i IH]; intros [|x0 X] [|e0 l] H K; try discriminate; simpl in *.
  - congruence.
  - apply IH; assumption.
Qed.
Lemma values_alpine1_nth X l i j x e : nth_error X i = Some x -> nth_error l j = Some e -> exists r, nth_error (values alpine1 false X (Some l)) i = Some r /\ nth_error r j = Some (alpine1 x + e).
Proof.
  intros H K. unfold values, returned. exists (map (fun e => alpine1 x + e) l). split.
  - rewrite map_map. apply map_nth_error with (f := fun x => map (fun e => alpine1 x + e) l), H.
  - apply map_nth_error with (f := fun e => alpine1 x + e), K.
Qed.
