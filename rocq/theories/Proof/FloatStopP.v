(** The stopping tests in double precision: proofs. *)
From Coq Require Import List ZArith Bool Reals Lra Lia Psatz Permutation SpecFloat.
From Flocq Require Import Core Plus_error Relative IEEE754.BinarySingleNaN.
From Verif.Model Require Import Py Float FloatStop.
From Verif.Spec Require Import FloatSpec FloatStopSpec.
From Verif.Proof Require Import FloatP.
Import ListNotations.
Local Open Scope R_scope.

Notation U := (bpow radix2 (-53)).
Notation eta := (bpow radix2 (-1075)).
Notation ql := (1 - U).
Notation qu := (1 + U).

Lemma U_small : 0 < U <= / 1024.
Proof. split; [apply bpow_gt_0|]. change (/ 1024) with (bpow radix2 (-10)). apply bpow_le. lia. Qed.

(** comparisons *)
Lemma fle_ok : forall x y, number x -> number y -> fle x y = Rle_bool (val x) (val y).
Proof. intros x y Hx Hy. apply (Bleb_correct 53 1024); auto. Qed.
Lemma nn_fle : forall x y, nn x -> nn y -> fle x y = Rle_bool (ext x) (ext y).
Proof.
  intros x y Hx Hy. pose proof (val_lt x) as Vx. pose proof (val_lt y) as Vy.
  destruct Hx as [[Fx Px]| ->]; destruct Hy as [[Fy Py]| ->].
  - rewrite fle_ok by auto. unfold ext. rewrite Fx, Fy. reflexivity.
  - unfold ext. rewrite Fx. cbn [is_finite]. rewrite Rle_bool_true.
    + destruct x as [s|s| |s m e Hb]; try discriminate; reflexivity.
    + apply Rlt_le. apply Rle_lt_trans with (2 := Vx). apply Rle_abs.
  - unfold ext. rewrite Fy. cbn [is_finite]. rewrite Rle_bool_false.
    + destruct y as [s|s| |s m e Hb]; try discriminate; reflexivity.
    + apply Rle_lt_trans with (2 := Vy). apply Rle_abs.
  - unfold ext. cbn [is_finite]. rewrite Rle_bool_true by lra. reflexivity.
Qed.
Lemma fle_nan : forall x y, nan_p x = true \/ nan_p y = true -> fle x y = false.
Proof. intros x y [H|H]; destruct x; destruct y; try discriminate; reflexivity. Qed.

(** ** additions *)
Lemma fadd_number : forall x y, nn x -> nn y -> number (fadd x y) -> number x /\ number y /\ val (fadd x y) = rnd (val x + val y).
Proof.
  intros x y Hx Hy H.
  assert (Nx : number x).
  { destruct Hx as [[Fx _]| ->]; auto. destruct (inf_add y) as [E _]; [apply nn_nan; auto|intros ->; destruct Hy as [[Hc _]|Hc]; discriminate|].
    rewrite E in H. discriminate H. }
  assert (Ny : number y).
  { destruct Hy as [[Fy _]| ->]; auto. destruct (inf_add x) as [_ E]; [apply nn_nan; auto|intros ->; discriminate|].
    rewrite E in H. discriminate H. }
  split; auto. split; auto.
  pose proof (Bplus_correct 53 1024 prec53 emax1024 mode_NE x y Nx Ny) as B.
  change (round radix2 (SpecFloat.fexp 53 1024) (round_mode mode_NE) (B2R x + B2R y)) with (rnd (val x + val y)) in B.
  destruct (Rlt_bool_spec (Rabs (rnd (val x + val y))) (bpow radix2 1024)) as [Hl|Hl].
  - destruct B as (B1 & _). exact B1.
  - destruct B as (B1 & _). exfalso. unfold number, fadd in H. unfold binary_overflow in B1. cbn [overflow_to_inf] in B1.
    destruct (Bplus mode_NE x y); discriminate.
Qed.
Lemma add_rel : forall x y, 0 <= val x -> 0 <= val y -> ql * (val x + val y) <= rnd (val x + val y) <= qu * (val x + val y).
Proof.
  intros x y Px Py. pose proof (sub_rel (val x) (- val y) (F64_val x)) as H.
  assert (G : F64 (- val y)) by (apply generic_format_opp; apply F64_val). specialize (H G).
  unfold Rminus at 1 3 in H. rewrite Ropp_involutive in H. replace (val x - - val y) with (val x + val y) in H by ring.
  rewrite (Rabs_pos_eq (val x + val y)) in H by lra. apply Rabs_le_inv in H. lra.
Qed.
Lemma rsum_app : forall a b, rsum (a ++ b) = rsum a + rsum b.
Proof. induction a as [|x a IH]; intro b; simpl; [ring|]. rewrite IH. ring. Qed.
Lemma rsum_perm : forall a b, Permutation a b -> rsum a = rsum b.
Proof. induction 1; simpl; lra. Qed.
Lemma rsum_pos : forall l, (forall x, In x l -> 0 <= x) -> 0 <= rsum l.
Proof.
  induction l as [|x l IH]; intro H; simpl; [lra|]. assert (0 <= x) by (apply H; left; reflexivity).
  assert (0 <= rsum l) by (apply IH; intros; apply H; right; auto). lra.
Qed.
Lemma nn_val : forall x, nn x -> 0 <= val x.
Proof. intros x [[_ H]| ->]; auto. unfold val. simpl. lra. Qed.
Lemma vals_pos : forall l, (forall x, In x l -> nn x) -> 0 <= rsum (map val l).
Proof. intros l H. apply rsum_pos. intros x Hx. apply in_map_iff in Hx as (y & <- & Hy). apply nn_val; auto. Qed.

Lemma nn_f0 : nn f0.
Proof. destruct f0_ok as [A B]. left. split; [exact A|]. rewrite B. lra. Qed.
Lemma added_nn : forall l x, added l x -> (forall b, In b l -> nn b) ->
  nn x /\ (forall b, In b l -> ext b <= ext x) /\ ((forall b, In b l -> ext b = 0) -> ext x = 0).
Proof.
  induction 1 as [|x|l r x y Hl Hr Al IHl Ar IHr|l r x P A IH]; intro Hn.
  - split; [apply nn_f0|]. split; [intros b []|]. intros _. destruct f0_ok as [C D]. unfold ext. rewrite C. exact D.
  - split; [apply Hn; left; reflexivity|]. split; [intros b [<-|[]]; lra|]. intro H. apply H. left. reflexivity.
  - destruct IHl as (L1 & L2 & L3); [intros; apply Hn; apply in_or_app; auto|].
    destruct IHr as (R1 & R2 & R3); [intros; apply Hn; apply in_or_app; auto|].
    destruct (nn_add x y L1 R1) as (N1 & N2 & N3 & N4). split; auto. split.
    + intros b Hb. apply in_app_or in Hb as [Hb|Hb]; [specialize (L2 b Hb)|specialize (R2 b Hb)]; lra.
    + intro H. apply N4; [apply L3|apply R3]; intros; apply H; apply in_or_app; auto.
  - destruct IH as (I1 & I2 & I3); [intros b Hb; apply Hn; apply (Permutation_in b P); auto|].
    split; auto. split.
    + intros b Hb. apply I2. apply (Permutation_in b (Permutation_sym P)); auto.
    + intro H. apply I3. intros b Hb. apply H. apply (Permutation_in b P); auto.
Qed.
Lemma added_nan : forall l x, added l x -> (exists b, In b l /\ nan_p b = true) -> nan_p x = true.
Proof.
  induction 1 as [|x|l r x y Hl Hr Al IHl Ar IHr|l r x P A IH]; intros (b & Hb & Nb).
  - destruct Hb.
  - destruct Hb as [<-|[]]; auto.
  - apply in_app_or in Hb as [Hb|Hb].
    + assert (N : nan_p x = true) by (apply IHl; eauto). destruct x; try discriminate. reflexivity.
    + assert (N : nan_p y = true) by (apply IHr; eauto). destruct y; try discriminate. destruct x; reflexivity.
  - apply IH. exists b. split; auto. apply (Permutation_in b (Permutation_sym P)); auto.
Qed.

Lemma pow_down : forall q (n m : nat), 0 < q <= 1 -> (n <= m)%nat -> q ^ m <= q ^ n.
Proof.
  intros q n m H L. replace m with (n + (m - n))%nat by lia. rewrite pow_add.
  assert (0 < q ^ n) by (apply pow_lt; lra). assert (q ^ (m - n) <= 1).
  { rewrite <- (pow1 (m - n)). apply pow_incr. lra. }
  nra.
Qed.
Lemma pow_up : forall q (n m : nat), 1 <= q -> (n <= m)%nat -> q ^ n <= q ^ m.
Proof. intros q n m H L. apply Rle_pow; auto. Qed.
Lemma len_pos : forall (A : Type) (l : list A), l <> [] -> (1 <= length l)%nat.
Proof. intros A [|] H; [congruence|simpl; lia]. Qed.

Lemma added_low : forall l x, added l x -> (forall b, In b l -> nn b) -> number x ->
  (forall b, In b l -> number b) /\ ql ^ length l * rsum (map val l) <= val x.
Proof.
  pose proof U_small as HU.
  induction 1 as [|x|l r x y Hl Hr Al IHl Ar IHr|l r x P A IH]; intros Hn Hx.
  - split; [intros b []|]. destruct f0_ok as [C D]. cbn [length pow map rsum]. rewrite D. lra.
  - split; [intros b [<-|[]]; auto|]. assert (0 <= val x) by (apply nn_val; apply Hn; left; reflexivity). simpl. nra.
  - assert (Hnl : forall b, In b l -> nn b) by (intros; apply Hn; apply in_or_app; auto).
    assert (Hnr : forall b, In b r -> nn b) by (intros; apply Hn; apply in_or_app; auto).
    destruct (added_nn l x Al Hnl) as (L1 & _). destruct (added_nn r y Ar Hnr) as (R1 & _).
    destruct (fadd_number x y L1 R1 Hx) as (Nx & Ny & E).
    destruct (IHl Hnl Nx) as (L2 & L3). destruct (IHr Hnr Ny) as (R2 & R3). split.
    + intros b Hb. apply in_app_or in Hb as [Hb|Hb]; auto.
    + rewrite E, map_app, rsum_app, app_length.
      pose proof (add_rel x y (nn_val x L1) (nn_val y R1)) as [G _].
      pose proof (vals_pos l Hnl) as Pl. pose proof (vals_pos r Hnr) as Pr.
      pose proof (len_pos _ l Hl) as Ll. pose proof (len_pos _ r Hr) as Lr.
      assert (Q1 : ql ^ (length l + length r) <= ql ^ S (length l)) by (apply pow_down; [lra|lia]).
      assert (Q2 : ql ^ (length l + length r) <= ql ^ S (length r)) by (apply pow_down; [lra|lia]).
      cbn [pow] in Q1, Q2.
      assert (A1 : ql ^ (length l + length r) * rsum (map val l) <= ql * val x) by nra.
      assert (A2 : ql ^ (length l + length r) * rsum (map val r) <= ql * val y) by nra.
      lra.
  - destruct IH as (I1 & I2); [intros b Hb; apply Hn; apply (Permutation_in b P); auto|auto|]. split.
    + intros b Hb. apply I1. apply (Permutation_in b (Permutation_sym P)); auto.
    + rewrite <- (Permutation_length P), <- (rsum_perm (map val l) (map val r)); auto. apply Permutation_map; auto.
Qed.

Lemma F64_bpow : forall e, (-1074 <= e)%Z -> F64 (bpow radix2 e).
Proof. intros e H. apply generic_format_bpow. unfold FLT_exp. lia. Qed.
Lemma rnd_under : forall x e, (-1074 <= e < 1024)%Z -> 0 <= x -> x <= bpow radix2 e -> Rabs (rnd x) < bpow radix2 1024.
Proof.
  intros x e He H0 H. pose proof (rnd_between 0 (bpow radix2 e) x (generic_format_0 _ _) (F64_bpow e (proj1 He)) (conj H0 H)) as [A B].
  rewrite Rabs_pos_eq by auto. apply Rle_lt_trans with (1 := B). apply bpow_lt. lia.
Qed.
Lemma added_high : forall l x, added l x -> (forall b, In b l -> nn b /\ number b) ->
  qu ^ length l * rsum (map val l) <= bpow radix2 1022 -> number x /\ val x <= qu ^ length l * rsum (map val l).
Proof.
  pose proof U_small as HU.
  induction 1 as [|x|l r x y Hl Hr Al IHl Ar IHr|l r x P A IH]; intros Hn Hx.
  - destruct f0_ok as [C D]. split; [exact C|]. cbn [length pow map rsum]. rewrite D. lra.
  - destruct (Hn x) as [N1 N2]; [left; reflexivity|]. split; auto. pose proof (nn_val x N1). simpl. nra.
  - assert (Hnl : forall b, In b l -> nn b /\ number b) by (intros; apply Hn; apply in_or_app; auto).
    assert (Hnr : forall b, In b r -> nn b /\ number b) by (intros; apply Hn; apply in_or_app; auto).
    destruct (added_nn l x Al) as (L1 & _); [intros; apply Hnl; auto|].
    destruct (added_nn r y Ar) as (R1 & _); [intros; apply Hnr; auto|].
    rewrite map_app, rsum_app, app_length in *.
    assert (Pl : 0 <= rsum (map val l)) by (apply vals_pos; intros; apply Hnl; auto).
    assert (Pr : 0 <= rsum (map val r)) by (apply vals_pos; intros; apply Hnr; auto).
    pose proof (len_pos _ l Hl) as Ll. pose proof (len_pos _ r Hr) as Lr.
    assert (Q1 : qu ^ S (length l) <= qu ^ (length l + length r)) by (apply pow_up; [lra|lia]).
    assert (Q2 : qu ^ S (length r) <= qu ^ (length l + length r)) by (apply pow_up; [lra|lia]).
    cbn [pow] in Q1, Q2.
    assert (0 < qu ^ length l) by (apply pow_lt; lra). assert (0 < qu ^ length r) by (apply pow_lt; lra).
    assert (M1 : qu * (qu ^ length l * rsum (map val l)) <= qu ^ (length l + length r) * rsum (map val l)) by nra.
    assert (M2 : qu * (qu ^ length r * rsum (map val r)) <= qu ^ (length l + length r) * rsum (map val r)) by nra.
    assert (G1 : 0 <= qu ^ length l * rsum (map val l)) by nra. assert (G2 : 0 <= qu ^ length r * rsum (map val r)) by nra.
    destruct IHl as (L2 & L3); [auto|nra|]. destruct IHr as (R2 & R3); [auto|nra|].
    pose proof (nn_val x L1) as Vx. pose proof (nn_val y R1) as Vy.
    pose proof (add_rel x y Vx Vy) as [_ G].
    destruct (fadd_ok x y L2 R2) as [N E].
    { apply (rnd_under _ 1022); [lia|lra|nra]. }
    split; auto. rewrite E. nra.
  - destruct IH as (I1 & I2).
    + intros b Hb; apply Hn; apply (Permutation_in b P); auto.
    + rewrite (Permutation_length P), (rsum_perm (map val l) (map val r)); auto. apply Permutation_map; auto.
    + split; auto. rewrite <- (Permutation_length P), <- (rsum_perm (map val l) (map val r)); auto. apply Permutation_map; auto.
Qed.

(** ** squares of differences *)
Lemma rnd_err : forall x, 0 <= x -> ql * x - eta <= rnd x <= qu * x + eta.
Proof.
  intros x Hx. destruct (error_N_FLT radix2 (-1074) 53 eq_refl (fun x => negb (Z.even x)) x) as (e & h & He & Hh & _ & E).
  change (- (53) + 1)%Z with (-52)%Z in He. replace (/ 2 * bpow radix2 (-52)) with U in He by (simpl; lra).
  assert (Eh : / 2 * bpow radix2 (-1074) = eta).
  { change (-1075)%Z with (-1 + -1074)%Z. rewrite bpow_plus. change (bpow radix2 (-1)) with (/ 2). reflexivity. }
  rewrite Eh in Hh. rewrite E. apply Rabs_le_inv in He. apply Rabs_le_inv in Hh. nra.
Qed.
Definition sq (a b : float) : float := fmul (fsub a b) (fsub a b).
Lemma fmul_number : forall d, nan_p d = false -> number (fmul d d) -> number d /\ val (fmul d d) = rnd (val d * val d).
Proof.
  intros d Hd H. assert (N : number d).
  { destruct d as [s|s| |s m e Hb]; try reflexivity; try discriminate Hd; destruct s; discriminate H. }
  split; auto. pose proof (Bmult_correct 53 1024 prec53 emax1024 mode_NE d d) as B.
  change (round radix2 (SpecFloat.fexp 53 1024) (round_mode mode_NE) (B2R d * B2R d)) with (rnd (val d * val d)) in B.
  destruct (Rlt_bool_spec (Rabs (rnd (val d * val d))) (bpow radix2 1024)) as [Hl|Hl].
  - destruct B as (B1 & _). exact B1.
  - exfalso. unfold number, fmul in H. unfold binary_overflow in B. cbn [overflow_to_inf] in B.
    destruct (Bmult mode_NE d d); discriminate.
Qed.
Lemma sub_bounds : forall a b, Rabs (rnd (val a - val b)) <= qu * Rabs (val a - val b) /\ ql * Rabs (val a - val b) <= Rabs (rnd (val a - val b)).
Proof.
  intros a b. pose proof (sub_rel (val a) (val b) (F64_val a) (F64_val b)) as H. set (t := val a - val b) in *.
  pose proof (Rabs_triang_inv (rnd t) t) as T1. pose proof (Rabs_triang_inv t (rnd t)) as T2.
  rewrite (Rabs_minus_sym t) in T2. lra.
Qed.
Lemma sq_low : forall a b, number a -> number b -> number (sq a b) -> ql ^ 3 * ((val a - val b) * (val a - val b)) <= val (sq a b) + eta.
Proof.
  intros a b Ha Hb H. pose proof U_small as HU. destruct (fmul_number (fsub a b) (sub_nan a b Ha Hb) H) as (N & E).
  unfold sq. rewrite E. pose proof (fsub_finite a b Ha Hb N) as Ed. destruct (sub_bounds a b) as [_ L]. rewrite <- Ed in L.
  set (t := val a - val b) in *. set (d := val (fsub a b)) in *.
  assert (S : 0 <= d * d) by nra. destruct (rnd_err (d * d) S) as [G _].
  assert (K : ql * ql * (t * t) <= d * d).
  { replace (t * t) with (Rabs t * Rabs t) by (rewrite <- Rabs_mult; apply Rabs_pos_eq; nra).
    replace (d * d) with (Rabs d * Rabs d) by (rewrite <- Rabs_mult; apply Rabs_pos_eq; nra).
    pose proof (Rabs_pos t). pose proof (Rabs_pos d).
    replace (ql * ql * (Rabs t * Rabs t)) with ((ql * Rabs t) * (ql * Rabs t)) by ring.
    assert (0 <= ql * Rabs t) by nra. nra. }
  cbn [pow]. assert (0 <= t * t) by nra. nra.
Qed.
Lemma bpow_sq : forall e, bpow radix2 e * bpow radix2 e = bpow radix2 (e + e).
Proof. intro e. symmetry. apply bpow_plus. Qed.
Lemma sq_high : forall a b, number a -> number b -> Rabs (val a - val b) <= bpow radix2 500 ->
  number (sq a b) /\ val (sq a b) <= qu ^ 3 * ((val a - val b) * (val a - val b)) + eta.
Proof.
  intros a b Ha Hb H. pose proof U_small as HU. destruct (sub_bounds a b) as [Hi _].
  set (t := val a - val b) in *.
  assert (R1 : Rabs (rnd t) <= bpow radix2 500).
  { apply Rabs_le_inv in H. apply Rabs_le. rewrite <- (rnd_F (bpow radix2 500)) by (apply F64_bpow; lia).
    split; [|apply rnd_mono; lra]. rewrite <- round_NE_opp. apply rnd_mono. lra. }
  destruct (fsub_ok a b Ha Hb) as [N E].
  { apply Rle_lt_trans with (1 := R1). apply bpow_lt. lia. }
  fold t in E. set (d := val (fsub a b)) in *.
  assert (S : 0 <= d * d) by nra.
  assert (D1 : d * d <= bpow radix2 1000).
  { change 1000%Z with (500 + 500)%Z. rewrite bpow_plus. rewrite E.
    replace (rnd t * rnd t) with (Rabs (rnd t) * Rabs (rnd t)) by (rewrite <- Rabs_mult; apply Rabs_pos_eq; nra).
    pose proof (Rabs_pos (rnd t)). nra. }
  destruct (fmul_ok (fsub a b) (fsub a b) N N) as [N2 E2].
  { apply (rnd_under _ 1000); [lia|exact S|exact D1]. }
  split; [exact N2|]. unfold sq. rewrite E2. fold d. destruct (rnd_err (d * d) S) as [_ G].
  assert (K : d * d <= qu * qu * (t * t)).
  { rewrite <- E in Hi.
    replace (t * t) with (Rabs t * Rabs t) by (rewrite <- Rabs_mult; apply Rabs_pos_eq; nra).
    replace (d * d) with (Rabs d * Rabs d) by (rewrite <- Rabs_mult; apply Rabs_pos_eq; nra).
    pose proof (Rabs_pos t). pose proof (Rabs_pos d).
    replace (qu * qu * (Rabs t * Rabs t)) with ((qu * Rabs t) * (qu * Rabs t)) by ring. nra. }
  cbn [pow]. assert (0 <= t * t) by nra. nra.
Qed.
Lemma sq_nn : forall a b, number a -> number b -> nn (sq a b).
Proof. intros a b Ha Hb. apply nn_square. apply sub_nan; auto. Qed.

Definition gaps (a b : list float) : list R := map (fun p => (val (fst p) - val (snd p)) * (val (fst p) - val (snd p))) (combine a b).
Lemma real_distance_gaps : forall a b, real_distance a b = sqrt (rsum (gaps a b)).
Proof. reflexivity. Qed.
Lemma gaps_pos : forall a b x, In x (gaps a b) -> 0 <= x.
Proof. intros a b x H. apply in_map_iff in H as (p & <- & _). apply Rle_0_sqr. Qed.
Lemma squares_in : forall a b s, In s (squares a b) -> exists x y, In x a /\ In y b /\ s = sq x y.
Proof.
  intros a b s H. apply in_map_iff in H as ([x y] & <- & Hp). exists x, y. split; [eapply in_combine_l; eauto|].
  split; [eapply in_combine_r; eauto|reflexivity].
Qed.
Lemma squares_nn : forall a b, numbers a -> numbers b -> forall s, In s (squares a b) -> nn s.
Proof. intros a b Ha Hb s H. apply squares_in in H as (x & y & Hx & Hy & ->). apply sq_nn; auto. Qed.
Lemma squares_low : forall a b, numbers a -> numbers b -> (forall s, In s (squares a b) -> number s) ->
  ql ^ 3 * rsum (gaps a b) <= rsum (map val (squares a b)) + INR (length (squares a b)) * eta.
Proof.
  induction a as [|x a IH]; intros [|y b] Ha Hb H; try (unfold gaps, squares; cbn [combine map rsum length INR]; lra).
  assert (Nx : number x) by (apply Ha; left; reflexivity). assert (Ny : number y) by (apply Hb; left; reflexivity).
  assert (Ns : number (sq x y)) by (apply H; left; reflexivity).
  pose proof (sq_low x y Nx Ny Ns) as L.
  assert (I : ql ^ 3 * rsum (gaps a b) <= rsum (map val (squares a b)) + INR (length (squares a b)) * eta).
  { apply IH; intros z Hz; [apply Ha|apply Hb|apply H]; right; auto. }
  change (squares (x :: a) (y :: b)) with (sq x y :: squares a b).
  change (gaps (x :: a) (y :: b)) with ((val x - val y) * (val x - val y) :: gaps a b).
  cbn [rsum map]. change (length (sq x y :: squares a b)) with (S (length (squares a b))). rewrite S_INR. lra.
Qed.
Lemma squares_high : forall a b, numbers a -> numbers b -> rsum (gaps a b) <= bpow radix2 1000 ->
  (forall s, In s (squares a b) -> number s) /\ rsum (map val (squares a b)) <= qu ^ 3 * rsum (gaps a b) + INR (length (squares a b)) * eta.
Proof.
  induction a as [|x a IH]; intros [|y b] Ha Hb H; try (split; [intros s []|unfold gaps, squares; cbn [combine map rsum length INR]; lra]).
  assert (Nx : number x) by (apply Ha; left; reflexivity). assert (Ny : number y) by (apply Hb; left; reflexivity).
  change (squares (x :: a) (y :: b)) with (sq x y :: squares a b) in *.
  change (gaps (x :: a) (y :: b)) with ((val x - val y) * (val x - val y) :: gaps a b) in *. cbn [rsum] in H.
  pose proof (rsum_pos (gaps a b) (gaps_pos a b)) as P.
  assert (T : Rabs (val x - val y) <= bpow radix2 500).
  { apply Rsqr_incr_0_var; [|apply bpow_ge_0]. rewrite <- Rsqr_abs. unfold Rsqr. rewrite bpow_sq. change (500 + 500)%Z with 1000%Z. lra. }
  destruct (sq_high x y Nx Ny T) as [Ns L].
  destruct (IH b) as [I1 I2].
  { intros z Hz; apply Ha; right; auto. } { intros z Hz; apply Hb; right; auto. }
  { assert (0 <= (val x - val y) * (val x - val y)) by apply Rle_0_sqr. lra. }
  split; [intros s [<-|Hs]; auto|]. cbn [rsum map]. change (length (sq x y :: squares a b)) with (S (length (squares a b))). rewrite S_INR. lra.
Qed.

(** ** the square root *)
Lemma sqrt_number : forall x, nn x -> number (fsqrt x) -> number x /\ val (fsqrt x) = rnd (sqrt (val x)).
Proof.
  intros x Hx H. destruct Hx as [[Fx Px]| ->]; [|discriminate H]. split; auto.
  destruct (Bsqrt_correct 53 1024 prec53 emax1024 mode_NE x) as (B1 & _). exact B1.
Qed.
Lemma sqrt_finite : forall x, number x -> 0 <= val x -> number (fsqrt x).
Proof.
  intros x Fx Px. destruct (Bsqrt_correct 53 1024 prec53 emax1024 mode_NE x) as (_ & B2 & _).
  unfold number, fsqrt. rewrite B2. destruct x as [s|s| |s m e Hb]; try discriminate; auto. destruct s; auto.
  exfalso. revert Px. apply Rlt_not_le. unfold val. simpl. apply F2R_lt_0. simpl. lia.
Qed.
Lemma F64_min : forall x, F64 x -> 0 < x -> bpow radix2 (-1074) <= x.
Proof.
  intros x F P. pose proof (generic_format_ge_bpow radix2 fexp64 (-1074)) as G. apply G; auto.
  intro e. unfold FLT_exp. lia.
Qed.
Lemma sqrt_rel : forall x, 0 <= val x -> ql * sqrt (val x) <= rnd (sqrt (val x)) <= qu * sqrt (val x).
Proof.
  intros x P. destruct (Rle_lt_or_eq_dec _ _ P) as [L|<-].
  - assert (M : bpow radix2 (-1022) <= sqrt (val x)).
    { apply Rle_trans with (bpow radix2 (-537)); [apply bpow_le; lia|].
      rewrite <- (sqrt_Rsqr (bpow radix2 (-537))) by apply bpow_ge_0. apply sqrt_le_1_alt. unfold Rsqr. rewrite bpow_sq.
      change (-537 + -537)%Z with (-1074)%Z. apply F64_min; auto. apply F64_val. }
    pose proof (norm_rel _ M) as R. apply Rabs_le_inv in R. lra.
  - rewrite sqrt_0, rnd_0. lra.
Qed.

(** ** the bounds *)
Lemma bernoulli : forall q (n : nat), 0 <= q <= 1 -> 1 - INR n * q <= (1 - q) ^ n.
Proof.
  intros q n H. induction n as [|n IH]; [simpl; lra|]. rewrite S_INR. cbn [pow]. pose proof (pos_INR n) as P. nra.
Qed.
Lemma pow_le1 : forall q n, 0 <= q <= 1 -> q ^ n <= 1.
Proof. intros q n H. rewrite <- (pow1 n). apply pow_incr. lra. Qed.
Definition dl : R := bpow radix2 (-32).
Lemma low_pow : forall n, (Z.of_nat n <= 2 ^ 20)%Z -> 1 - dl <= ql ^ (n + 5).
Proof.
  intros n H. pose proof U_small as HU. apply Rle_trans with (2 := bernoulli U (n + 5) ltac:(lra)).
  assert (G : INR (n + 5) <= bpow radix2 21).
  { rewrite INR_IZR_INZ. change (bpow radix2 21) with (IZR (2 ^ 21)). apply IZR_le. lia. }
  assert (K : dl = bpow radix2 21 * U) by (unfold dl; rewrite <- bpow_plus; reflexivity).
  rewrite K. nra.
Qed.
Lemma high_pow : forall n, (Z.of_nat n <= 2 ^ 20)%Z -> (1 - dl) * qu ^ (n + 5) <= 1.
Proof.
  intros n H. pose proof U_small as HU. pose proof (low_pow n H) as L.
  assert (P : 0 < qu ^ (n + 5)) by (apply pow_lt; lra).
  apply Rle_trans with (ql ^ (n + 5) * qu ^ (n + 5)); [nra|]. rewrite <- Rpow_mult_distr. apply pow_le1. nra.
Qed.
Lemma small_sum : forall n, (Z.of_nat n <= 2 ^ 20)%Z -> 0 <= INR n * eta <= bpow radix2 (-1055).
Proof.
  intros n H. pose proof (bpow_ge_0 radix2 (-1075)) as E. pose proof (pos_INR n) as P. split; [nra|].
  change (-1055)%Z with (20 + -1075)%Z. rewrite bpow_plus. apply Rmult_le_compat_r; auto.
  rewrite INR_IZR_INZ. change (bpow radix2 20) with (IZR (2 ^ 20)). apply IZR_le. exact H.
Qed.
Lemma slack : forall e, 0 <= e -> e * e + bpow radix2 (-1055) <=
  (1 - dl) * (((1 + bpow radix2 (-30)) * e + bpow radix2 (-520)) * ((1 + bpow radix2 (-30)) * e + bpow radix2 (-520))).
Proof.
  intros e He. set (h := bpow radix2 (-520)). assert (Hh : 0 <= h) by apply bpow_ge_0.
  assert (K : bpow radix2 (-1055) = bpow radix2 (-15) * (h * h)) by (unfold h; rewrite <- !bpow_plus; reflexivity).
  rewrite K. unfold dl. change (bpow radix2 (-15)) with (/ IZR (2 ^ 15)). change (bpow radix2 (-30)) with (/ IZR (2 ^ 30)).
  change (bpow radix2 (-32)) with (/ IZR (2 ^ 32)).
  set (A := (1 + / IZR (2 ^ 30)) * e).
  assert (HA : e <= A) by (unfold A; assert (0 < / IZR (2 ^ 30)) by (apply Rinv_0_lt_compat; apply IZR_lt; lia); nra).
  assert (S1 : e * e <= (1 - / IZR (2 ^ 32)) * (A * A)).
  { unfold A. assert (1 <= (1 - / IZR (2 ^ 32)) * ((1 + / IZR (2 ^ 30)) * (1 + / IZR (2 ^ 30)))) by (simpl; lra). nra. }
  assert (S2 : / IZR (2 ^ 15) * (h * h) <= (1 - / IZR (2 ^ 32)) * (h * h)) by (assert (0 <= h * h) by nra; simpl; nra).
  assert (S3 : 0 <= (1 - / IZR (2 ^ 32)) * (A * h)).
  { assert (0 <= A * h) by nra. simpl. nra. }
  nra.
Qed.

Lemma squares_length : forall a b, (length (squares a b) <= length a)%nat.
Proof. intros a b. unfold squares. rewrite map_length, combine_length. lia. Qed.

(** if the computed distance is a number, the distance of the points is not much larger *)
Lemma distance_low : forall total a b, (forall l, added l (total l)) -> numbers a -> numbers b -> (Z.of_nat (length a) <= 2 ^ 20)%Z ->
  number (distance total a b) -> real_distance a b <= (1 + bpow radix2 (-30)) * val (distance total a b) + bpow radix2 (-520).
Proof.
  intros total a b Ht Ha Hb Hn H. pose proof U_small as HU.
  pose proof (squares_nn a b Ha Hb) as Sn. pose proof (Ht (squares a b)) as A.
  destruct (added_nn _ _ A Sn) as (Tn & _).
  destruct (sqrt_number _ Tn H) as (N & E).
  destruct (added_low _ _ A Sn N) as (Ns & L).
  pose proof (squares_low a b Ha Hb Ns) as L2.
  pose proof (nn_val _ Tn) as Tp.
  destruct (sqrt_rel _ Tp) as [R _]. rewrite <- E in R. fold (distance total a b) in R.
  set (n := length (squares a b)) in *. set (T := rsum (gaps a b)) in *. set (S := val (total (squares a b))) in *.
  set (d := val (distance total a b)) in *. set (SS := rsum (map val (squares a b))) in *.
  assert (Hn' : (Z.of_nat n <= 2 ^ 20)%Z) by (pose proof (squares_length a b); unfold n; lia).
  pose proof (small_sum n Hn') as [E0 E1]. pose proof (low_pow n Hn') as LP.
  assert (TP : 0 <= T) by (apply rsum_pos; apply gaps_pos).
  assert (SP : sqrt S * sqrt S = S) by (apply sqrt_sqrt; auto). pose proof (sqrt_pos S) as sp.
  assert (D2 : ql * ql * S <= d * d).
  { rewrite <- SP. replace (ql * ql * (sqrt S * sqrt S)) with ((ql * sqrt S) * (ql * sqrt S)) by ring. assert (0 <= ql * sqrt S) by nra. nra. }
  assert (P1 : 0 < ql ^ n <= 1) by (split; [apply pow_lt; lra|apply pow_le1; lra]).
  assert (K : ql ^ (n + 5) * T <= d * d + bpow radix2 (-1055)).
  { replace (ql ^ (n + 5) * T) with (ql * ql * (ql ^ n * (ql ^ 3 * T))) by (rewrite pow_add; ring).
    assert (K1 : ql ^ n * (ql ^ 3 * T) <= S + bpow radix2 (-1055)).
    { apply Rle_trans with (ql ^ n * (SS + INR n * eta)); [apply Rmult_le_compat_l; lra|].
      rewrite Rmult_plus_distr_l. assert (ql ^ n * (INR n * eta) <= INR n * eta) by nra. lra. }
    pose proof (bpow_ge_0 radix2 (-1055)) as B0.
    assert (Q : 0 < ql * ql <= 1) by nra.
    apply Rle_trans with (ql * ql * (S + bpow radix2 (-1055))); [apply Rmult_le_compat_l; lra|]. nra. }
  assert (dp : 0 <= d).
  { unfold d. destruct (nn_sqrt _ Tn) as (X & _). apply nn_val. exact X. }
  pose proof (slack d dp) as SL. rewrite real_distance_gaps. fold T.
  set (B := (1 + bpow radix2 (-30)) * d + bpow radix2 (-520)) in *.
  assert (dl1 : 0 < 1 - dl) by (unfold dl; simpl; lra).
  assert (BP : 0 <= B).
  { unfold B. pose proof (bpow_ge_0 radix2 (-30)). pose proof (bpow_ge_0 radix2 (-520)). nra. }
  rewrite <- (sqrt_Rsqr B BP). apply sqrt_le_1_alt. unfold Rsqr.
  apply Rmult_le_reg_l with (1 - dl); auto. nra.
Qed.
(** points that are not too far apart have a computed distance, which is not much larger *)
Lemma distance_high : forall total a b, (forall l, added l (total l)) -> numbers a -> numbers b -> (Z.of_nat (length a) <= 2 ^ 20)%Z ->
  real_distance a b <= bpow radix2 500 ->
  number (distance total a b) /\ val (distance total a b) <= (1 + bpow radix2 (-30)) * real_distance a b + bpow radix2 (-520).
Proof.
  intros total a b Ht Ha Hb Hn H. pose proof U_small as HU.
  pose proof (squares_nn a b Ha Hb) as Sn. pose proof (Ht (squares a b)) as A.
  rewrite real_distance_gaps in *. 
  assert (TP : 0 <= rsum (gaps a b)) by (apply rsum_pos; apply gaps_pos).
  pose proof (sqrt_sqrt _ TP) as SQ. pose proof (sqrt_pos (rsum (gaps a b))) as sp.
  set (D := sqrt (rsum (gaps a b))) in *. set (T := rsum (gaps a b)) in *.
  assert (TB : T <= bpow radix2 1000).
  { rewrite <- SQ. change 1000%Z with (500 + 500)%Z. rewrite bpow_plus. nra. }
  destruct (squares_high a b Ha Hb TB) as [Ns L2].
  fold T in L2. set (n := length (squares a b)) in *. set (SS := rsum (map val (squares a b))) in *.
  assert (Hn' : (Z.of_nat n <= 2 ^ 20)%Z) by (pose proof (squares_length a b); unfold n; lia).
  pose proof (small_sum n Hn') as [E0 E1]. pose proof (high_pow n Hn') as HP.
  assert (P1 : 1 <= qu ^ n) by (apply pow_R1_Rle; lra).
  assert (P3 : 1 <= qu ^ 3) by (apply pow_R1_Rle; lra).
  assert (dl1 : / 2 <= 1 - dl) by (unfold dl; simpl; lra).
  assert (K : qu ^ n * SS <= qu ^ (n + 3) * (T + bpow radix2 (-1055))).
  { rewrite pow_add, Rmult_assoc. apply Rmult_le_compat_l; [lra|]. nra. }
  assert (Q5 : qu ^ (n + 5) = qu ^ (n + 3) * (qu * qu)) by (rewrite !pow_add; ring).
  assert (P6 : 0 < qu ^ (n + 3)) by (apply pow_lt; lra).
  assert (P7 : qu ^ (n + 3) <= 2).
  { apply Rle_trans with (qu ^ (n + 5)); [apply pow_up; [lra|lia]|]. assert (0 < qu ^ (n + 5)) by (apply pow_lt; lra). nra. }
  assert (small : bpow radix2 (-1055) <= bpow radix2 1000) by (apply bpow_le; lia).
  pose proof (bpow_ge_0 radix2 (-1055)) as B0.
  destruct (added_high _ _ A) as [N V].
  { intros s Hs. split; auto. }
  { fold n SS. apply Rle_trans with (1 := K). apply Rle_trans with (2 * (bpow radix2 1000 + bpow radix2 1000)); [nra|].
    change 1022%Z with (22 + 1000)%Z. rewrite bpow_plus. change (bpow radix2 22) with (IZR (2 ^ 22)). pose proof (bpow_ge_0 radix2 1000) as B1. simpl (IZR (2 ^ 22)). nra. }
  fold n SS in V. destruct (added_nn _ _ A Sn) as (Tn & _). pose proof (nn_val _ Tn) as Tp.
  pose proof (sqrt_finite _ N Tp) as Nd. destruct (sqrt_number _ Tn Nd) as (_ & E).
  split; [exact Nd|]. unfold distance. rewrite E. destruct (sqrt_rel _ Tp) as [_ R].
  set (S := val (total (squares a b))) in *. apply Rle_trans with (1 := R).
  pose proof (slack D sp) as SL. set (B := (1 + bpow radix2 (-30)) * D + bpow radix2 (-520)) in *.
  assert (BP : 0 <= B).
  { unfold B. pose proof (bpow_ge_0 radix2 (-30)). pose proof (bpow_ge_0 radix2 (-520)). nra. }
  pose proof (sqrt_pos S) as ss. pose proof (sqrt_sqrt S Tp) as SS2.
  apply Rsqr_incr_0_var; auto. unfold Rsqr. replace (qu * sqrt S * (qu * sqrt S)) with (qu * qu * (sqrt S * sqrt S)) by ring. rewrite SS2.
  assert (M : qu * qu * S <= qu ^ (n + 5) * (T + bpow radix2 (-1055))).
  { rewrite Q5. apply Rle_trans with (qu * qu * (qu ^ (n + 3) * (T + bpow radix2 (-1055)))); [apply Rmult_le_compat_l; [nra|lra]|]. lra. }
  apply Rle_trans with (1 := M). apply Rmult_le_reg_l with (1 - dl); [lra|].
  assert (0 <= T + bpow radix2 (-1055)) by lra. nra.
Qed.

(** ** what the tests say *)
Lemma distance_nn : forall total a b, (forall l, added l (total l)) -> numbers a -> numbers b -> nn (distance total a b).
Proof.
  intros total a b Ht Ha Hb. destruct (added_nn _ _ (Ht (squares a b)) (squares_nn a b Ha Hb)) as (Tn & _).
  apply nn_sqrt. exact Tn.
Qed.
Lemma distance_same : forall total a b, (forall l, added l (total l)) -> numbers a -> numbers b -> map val a = map val b ->
  number (distance total a b) /\ val (distance total a b) = 0.
Proof.
  intros total a b Ht Ha Hb E. destruct (added_nn _ _ (Ht (squares a b)) (squares_nn a b Ha Hb)) as (Tn & _ & Tz).
  assert (Z : ext (distance total a b) = 0).
  { apply nn_sqrt; auto. apply Tz. clear - Ha Hb E. revert b Hb E.
    induction a as [|x a IH]; intros [|y b] Hb E s Hs; try discriminate; try destruct Hs as [].
    - injection E as E1 E2. subst s. apply square_same; auto; [apply Ha|apply Hb]; left; reflexivity.
    - injection E as E1 E2. apply (IH (fun z Hz => Ha z (or_intror Hz)) b (fun z Hz => Hb z (or_intror Hz)) E2 s H). }
  destruct (distance_nn total a b Ht Ha Hb) as [[N P]|I].
  - split; auto. unfold ext in Z. rewrite N in Z. exact Z.
  - rewrite I in Z. unfold ext in Z. cbn [is_finite] in Z. pose proof (bpow_gt_0 radix2 1024). lra.
Qed.
Definition nn_or_nan (x : float) : Prop := nn x \/ nan_p x = true.
Lemma square_any : forall d, nn_or_nan (fmul d d).
Proof. intro d. destruct (nan_p d) eqn:N; [right; destruct d; try discriminate; reflexivity|left; apply nn_square; auto]. Qed.
Lemma fadd_any : forall x y, nn_or_nan x -> nn_or_nan y -> nn_or_nan (fadd x y).
Proof.
  intros x y [Hx|Hx] [Hy|Hy]; [left; apply nn_add; auto| | |]; right; destruct x; destruct y; try discriminate; reflexivity.
Qed.
Lemma added_any : forall l x, added l x -> (forall b, In b l -> nn_or_nan b) -> nn_or_nan x.
Proof.
  induction 1 as [|x|l r x y Hl Hr Al IHl Ar IHr|l r x P A IH]; intro Hn.
  - left. apply nn_f0.
  - apply Hn. left. reflexivity.
  - apply fadd_any; [apply IHl|apply IHr]; intros; apply Hn; apply in_or_app; auto.
  - apply IH. intros b Hb. apply Hn. apply (Permutation_in b P); auto.
Qed.
Lemma distance_any : forall total a b, (forall l, added l (total l)) -> nn_or_nan (distance total a b).
Proof.
  intros total a b Ht. destruct (added_any _ _ (Ht (squares a b))) as [H|H].
  - intros s Hs. apply squares_in in Hs as (x & y & _ & _ & ->). apply square_any.
  - left. apply nn_sqrt. exact H.
  - right. unfold distance. destruct (total (squares a b)); try discriminate. reflexivity.
Qed.
Lemma last_any : forall total X, (forall l, added l (total l)) -> nn_or_nan (distance_last_evaluations total X).
Proof.
  intros total X Ht. unfold distance_last_evaluations. destruct (rev X) as [|a [|b r]]; [left; right; reflexivity|left; right; reflexivity|].
  apply distance_any; auto.
Qed.
Lemma below_fle : forall x e, nn_or_nan x -> below e -> fle x e = false.
Proof.
  intros x e [Hx|Hx] He; [|apply fle_nan; auto]. destruct He as [He|[-> |[Ne Le]]]; [apply fle_nan; auto| |].
  - destruct Hx as [[Nx _]| ->]; [|reflexivity]. destruct x; try discriminate; reflexivity.
  - destruct Hx as [[Nx Px]| ->].
    + rewrite fle_ok by auto. apply Rle_bool_false. lra.
    + destruct e; try discriminate; reflexivity.
Qed.
Lemma last_two : forall total X a b, distance_last_evaluations total (X ++ [b; a]) = distance total a b.
Proof. intros. unfold distance_last_evaluations. rewrite rev_app_distr. reflexivity. Qed.
Lemma two_rows : forall (X : list (list float)) a b, Nat.ltb 1 (length (X ++ [b; a])) = true.
Proof. intros. apply Nat.ltb_lt. rewrite app_length. simpl. lia. Qed.
Lemma distance_nan : forall total a b, (forall l, added l (total l)) -> (exists x y, In (x, y) (combine a b) /\ nan_p (fsub x y) = true) ->
  nan_p (distance total a b) = true.
Proof.
  intros total a b Ht (x & y & Hp & Hn). assert (N : nan_p (total (squares a b)) = true).
  { apply (added_nan _ _ (Ht (squares a b))). exists (sq x y). split; [apply in_map_iff; exists (x, y); auto|].
    unfold sq. destruct (fsub x y); try discriminate. reflexivity. }
  unfold distance. destruct (total (squares a b)); try discriminate. reflexivity.
Qed.

(** ** the loop *)
Lemma enters_inf : forall cum, number cum -> enters (B754_infinity false) cum = true.
Proof. intros cum H. destruct cum; try discriminate; reflexivity. Qed.
Lemma budget_test : forall m n, number m -> (0 <= n <= 2 ^ 53)%Z -> fle m (of_Z n) = Rle_bool (val m) (IZR n).
Proof. intros m n Hm Hn. destruct (of_Z_ok n) as [A B]; [lia|]. rewrite fle_ok, B; auto. Qed.
Lemma leaves_below : forall total m e num X, (forall l, added l (total l)) -> below e -> leaves total m e num X = fle m (of_Z num).
Proof.
  intros total m e num X Ht He. unfold leaves. rewrite (below_fle _ e (last_any total X Ht) He), andb_false_r, orb_false_r. reflexivity.
Qed.
Lemma passes_budget : forall total m e zero, (forall l, added l (total l)) -> below e -> number m ->
  forall steps k num cum X, (0 <= num)%Z -> (num + Z.of_nat k <= 2 ^ 53)%Z -> number cum ->
  val m <= IZR (num + Z.of_nat k) -> (forall j, (j < k)%nat -> IZR (num + Z.of_nat j) < val m) ->
  (k <= length steps)%nat -> (forall r now, In (r, now) steps -> number (cum_time now zero)) ->
  passes total m (B754_infinity false) e zero num cum X steps = Some ((num + Z.of_nat k)%Z, X ++ concat (map fst (firstn k steps))).
Proof.
  intros total m e zero Ht He Hm. induction steps as [|[rows now] steps IH]; intros k num cum X H0 H1 Hc Hv Hj Hl Hs.
  - cbn [length] in Hl. assert (k = 0)%nat by lia. subst k. cbn [passes]. rewrite enters_inf, leaves_below by auto.
    rewrite budget_test by (auto; lia). rewrite Z.add_0_r in Hv. rewrite Rle_bool_true by exact Hv.
    cbn [firstn map concat]. rewrite app_nil_r, Z.add_0_r. reflexivity.
  - cbn [passes]. rewrite enters_inf, leaves_below by auto. rewrite budget_test by (auto; lia). destruct k as [|k].
    + rewrite Z.add_0_r in Hv. rewrite Rle_bool_true by exact Hv. cbn [firstn map concat]. rewrite app_nil_r, Z.add_0_r. reflexivity.
    + rewrite Rle_bool_false.
      * replace (num + Z.of_nat (S k))%Z with (num + 1 + Z.of_nat k)%Z in * by lia.
        rewrite (IH k (num + 1)%Z); auto.
        -- cbn [firstn map concat fst]. rewrite app_assoc. reflexivity.
        -- lia.
        -- apply (Hs rows now). left. reflexivity.
        -- intros j Hj'. specialize (Hj (S j)). replace (num + Z.of_nat (S j))%Z with (num + 1 + Z.of_nat j)%Z in Hj by lia. apply Hj. lia.
        -- cbn [length] in Hl. lia.
        -- intros r nw Hin. apply (Hs r nw). right. auto.
      * specialize (Hj 0%nat). rewrite Z.add_0_r in Hj. apply Hj. lia.
Qed.
Lemma passes_endless : forall total m e zero, (forall l, added l (total l)) -> below e -> nan_p m = true \/ m = B754_infinity false ->
  forall steps num cum X, (0 <= num)%Z -> (num + Z.of_nat (length steps) <= 2 ^ 53)%Z -> number cum ->
  (forall r now, In (r, now) steps -> number (cum_time now zero)) ->
  passes total m (B754_infinity false) e zero num cum X steps = None.
Proof.
  intros total m e zero Ht He Hm. induction steps as [|[rows now] steps IH]; intros num cum X H0 H1 Hc Hs.
  - cbn [passes length] in *. rewrite enters_inf, leaves_below by auto.
    assert (E : fle m (of_Z num) = false).
    { destruct Hm as [Hm| ->]; [apply fle_nan; auto|]. destruct (of_Z_ok num) as [A _]; [lia|]. destruct (of_Z num); try discriminate; reflexivity. }
    rewrite E. reflexivity.
  - cbn [passes length] in *. rewrite enters_inf, leaves_below by auto.
    assert (E : fle m (of_Z num) = false).
    { destruct Hm as [Hm| ->]; [apply fle_nan; auto|]. destruct (of_Z_ok num) as [A _]; [lia|]. destruct (of_Z num); try discriminate; reflexivity. }
    rewrite E. apply IH; [lia|lia| |].
    + apply (Hs rows now). left. reflexivity.
    + intros r nw Hin. apply (Hs r nw). right. auto.
Qed.
Lemma time_over : forall mt now zero, number mt -> number now -> number zero -> number (cum_time now zero) ->
  val mt <= val now - val zero -> enters mt (cum_time now zero) = false.
Proof.
  intros mt now zero Hm Hn Hz Hc H. unfold enters. rewrite flt_ok by auto. apply Rlt_bool_false.
  unfold cum_time in *. rewrite (fsub_finite now zero) by auto. rewrite <- (rnd_F (val mt)) by apply F64_val. apply rnd_mono. exact H.
Qed.
Lemma time_left : forall mt now zero, number mt -> number now -> number zero -> number (cum_time now zero) ->
  0 < val mt -> val now - val zero <= (1 - bpow radix2 (-52)) * val mt -> enters mt (cum_time now zero) = true.
Proof.
  intros mt now zero Hm Hn Hz Hc H0 H. pose proof U_small as HU. unfold enters. rewrite flt_ok by auto. apply Rlt_bool_true.
  unfold cum_time in *. rewrite (fsub_finite now zero) by auto.
  assert (K : bpow radix2 (-52) = 2 * U) by (change (-52)%Z with (1 + -53)%Z; rewrite bpow_plus; reflexivity). rewrite K in H.
  pose proof (sub_rel (val now) (val zero) (F64_val now) (F64_val zero)) as R. set (t := val now - val zero) in *.
  apply Rabs_le_inv in R. destruct (Rle_dec 0 t) as [P|P].
  - rewrite Rabs_pos_eq in R by auto. nra.
  - rewrite Rabs_left in R by lra. nra.
Qed.
Lemma passes_time : forall total m e mt zero, number mt -> number zero -> forall steps j rows now num cum X,
  nth_error steps j = Some (rows, now) -> number now -> number (cum_time now zero) -> val mt <= val now - val zero ->
  exists k X', passes total m mt e zero num cum X steps = Some (k, X') /\ (num <= k <= num + Z.of_nat j + 1)%Z.
Proof.
  intros total m e mt zero Hm Hz. induction steps as [|[r n] steps IH]; intros j rows now num cum X Hj Hn Hc H; [destruct j; discriminate|].
  cbn [passes]. destruct (enters mt cum); [|exists num, X; split; auto; lia].
  destruct (leaves total m e num X); [exists num, X; split; auto; lia|].
  destruct j as [|j].
  - injection Hj as <- <-. exists (num + 1)%Z, (X ++ r). split; [|lia].
    pose proof (time_over mt n zero Hm Hn Hz Hc H) as T. destruct steps as [|[r' n'] s]; cbn [passes]; rewrite T; reflexivity.
  - destruct (IH j rows now (num + 1)%Z (cum_time n zero) (X ++ r) Hj Hn Hc H) as (k & X' & P1 & P2).
    exists k, X'. split; auto. lia.
Qed.

(** two orders of addition *)
Definition from_left (l : list float) : float := match l with [] => f0 | x :: r => fold_left fadd r x end.
Definition from_right (l : list float) : float := match rev l with [] => f0 | x :: r => fold_left fadd r x end.
Lemma fold_added : forall r l x, l <> [] -> added l x -> added (l ++ r) (fold_left fadd r x).
Proof.
  induction r as [|y r IH]; intros l x Hl Hx; cbn [fold_left]; [rewrite app_nil_r; auto|].
  replace (l ++ y :: r) with ((l ++ [y]) ++ r) by (rewrite <- app_assoc; reflexivity). apply IH.
  - destruct l; discriminate.
  - apply added_two; auto; [discriminate|apply added_one].
Qed.
Lemma from_left_added : forall l, added l (from_left l).
Proof. intros [|x r]; [apply added_none|]. apply (fold_added r [x] x); [discriminate|apply added_one]. Qed.
Lemma from_right_added : forall l, added l (from_right l).
Proof.
  intro l. apply added_order with (rev l); [apply Permutation_sym, Permutation_rev|].
  unfold from_right. destruct (rev l) as [|x r]; [apply added_none|]. apply (fold_added r [x] x); [discriminate|apply added_one].
Qed.
