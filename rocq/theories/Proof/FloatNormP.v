(** normalize in double precision: proofs. *)
From Coq Require Import List ZArith Bool Reals Lra Lia Psatz Permutation.
From Flocq Require Import Core Relative Plus_error IEEE754.BinarySingleNaN.
From Verif.Model Require Import Py Float FloatStop FloatCons FloatNorm.
From Verif.Spec Require Import FloatSpec FloatStopSpec FloatConsSpec FloatNormSpec.
From Verif.Proof Require Import FloatP FloatStopP FloatConsP FloatCostP FloatAcqP FloatAccA FloatAccP FloatLPP.
Import ListNotations.
Local Open Scope R_scope.

(** ---- sums *)
Lemma rsum_app : forall a b, rsum (a ++ b) = rsum a + rsum b.
Proof. induction a as [|x a IH]; intros b; cbn; [ring|]. rewrite IH. ring. Qed.
Lemma rsum_perm : forall a b, Permutation a b -> rsum a = rsum b.
Proof. intros a b P. induction P; cbn; lra. Qed.
Lemma rsum_le : forall {A} (f g : A -> R) l, (forall a, In a l -> f a <= g a) -> rsum (map f l) <= rsum (map g l).
Proof. induction l as [|a l IH]; intros H; cbn; [lra|]. assert (f a <= g a) by (apply H; now left). assert (rsum (map f l) <= rsum (map g l)) by (apply IH; intros; apply H; now right). lra. Qed.
Lemma rsum_scale : forall {A} (f : A -> R) c l, rsum (map (fun a => c * f a) l) = c * rsum (map f l).
Proof. induction l as [|a l IH]; cbn; [ring|]. rewrite IH. ring. Qed.
Lemma rsum_plus : forall {A} (f g : A -> R) l, rsum (map (fun a => f a + g a) l) = rsum (map f l) + rsum (map g l).
Proof. induction l as [|a l IH]; cbn; [ring|]. rewrite IH. ring. Qed.
Lemma rsum_const : forall {A} c (l : list A), rsum (map (fun _ => c) l) = INR (length l) * c.
Proof. induction l as [|a l IH]; [cbn; ring|]. cbn [map rsum length]. rewrite IH, S_INR. ring. Qed.
Lemma rsum_abs : forall {A} (f g h : A -> R) l, (forall a, In a l -> Rabs (f a - g a) <= h a) -> Rabs (rsum (map f l) - rsum (map g l)) <= rsum (map h l).
Proof.
  induction l as [|a l IH]; intros H; cbn; [rewrite Rminus_0_r, Rabs_R0; lra|]. assert (H1 : Rabs (f a - g a) <= h a) by (apply H; now left).
  assert (H2 : Rabs (rsum (map f l) - rsum (map g l)) <= rsum (map h l)) by (apply IH; intros; apply H; now right). apply Rabs_le_inv in H1, H2. apply Rabs_le. lra.
Qed.
Lemma rnd_plus : forall x y, F64 x -> F64 y -> Rabs (rnd (x + y) - (x + y)) <= ee * Rabs (x + y).
Proof.
  intros x y Fx Fy. destruct (FLT_plus_error_N_ex radix2 (-1074) 53 (fun n => negb (Z.even n)) x y Fx Fy) as (eps & E & Q).
  change (round radix2 (FLT_exp (-1074) 53) (Znearest (fun n : Z => negb (Z.even n))) (x + y)) with (rnd (x + y)) in Q. rewrite Q. replace ((x + y) * (1 + eps) - (x + y)) with (eps * (x + y)) by ring.
  rewrite Rabs_mult. apply Rmult_le_compat_r; [apply Rabs_pos|]. apply Rle_trans with (1 := E). assert (u_ro radix2 53 = ee) as -> by (unfold u_ro, ee; cbn; lra).
  pose proof ee_small. apply Rmult_le_reg_r with (1 + ee); [lra|]. unfold Rdiv. rewrite Rmult_assoc, Rinv_l by lra. nra.
Qed.
Lemma rnd_bound : forall x e, (-1074 <= e)%Z -> Rabs x <= bpow radix2 e -> Rabs (rnd x) <= bpow radix2 e.
Proof. intros x e He H. apply abs_round_le_generic; [apply FLT_exp_valid; red; lia | apply valid_rnd_N | apply F64_bpow; lia | exact H]. Qed.
Definition big_l (l : list float) : R := rsum (map (fun y => Rabs (val y)) l).
Lemma big_bound : forall l M, (forall y, In y l -> Rabs (val y) <= M) -> big_l l <= INR (length l) * M.
Proof. intros l M H. unfold big_l. rewrite <- (rsum_const M l). apply rsum_le. exact H. Qed.
Lemma big_pos : forall l, 0 <= big_l l.
Proof. intros l. unfold big_l. replace 0 with (rsum (map (fun _ : float => 0) l)); [apply rsum_le; intros; apply Rabs_pos|]. rewrite rsum_const. ring. Qed.
Lemma big_app : forall a b, big_l (a ++ b) = big_l a + big_l b.
Proof. intros. unfold big_l. now rewrite map_app, rsum_app. Qed.
Lemma sum_error : forall l x, added l x -> (forall y, In y l -> number y) -> INR (length l) * ee <= / 8192 -> big_l l <= bpow radix2 999 ->
  number x /\ Rabs (val x - rsum (map val l)) <= 2 * (INR (length l) * ee) * big_l l.
Proof.
  pose proof ee_small as Es. intros l x H. induction H as [|x|l r x y Hl Hr H1 IH1 H2 IH2|l r x P H IH]; intros A N B.
  - destruct f0_ok as [Z V]. split; [exact Z|]. unfold big_l. cbn [map rsum length INR]. rewrite V, Rminus_0_r, Rabs_R0. lra.
  - split; [apply A; now left|]. cbn [map rsum length INR]. replace (val x - (val x + 0)) with 0 by ring. rewrite Rabs_R0. pose proof (big_pos [x]). apply Rmult_le_pos; lra.
  - rewrite big_app in *. rewrite app_length, plus_INR in *. pose proof (big_pos l) as P1. pose proof (big_pos r) as P2. set (k := INR (length l)) in *. set (j := INR (length r)) in *.
    assert (K1 : 1 <= k) by (unfold k; destruct l; [congruence|]; cbn [length]; rewrite S_INR; pose proof (pos_INR (length l)); lra).
    assert (J1 : 1 <= j) by (unfold j; destruct r; [congruence|]; cbn [length]; rewrite S_INR; pose proof (pos_INR (length r)); lra).
    assert (Kp : 0 <= k * ee) by (apply Rmult_le_pos; lra). assert (Jp : 0 <= j * ee) by (apply Rmult_le_pos; lra). rewrite Rmult_plus_distr_r in N.
    destruct IH1 as [Nx Ex]; [intros; apply A, in_or_app; auto | lra | lra|]. destruct IH2 as [Ny Ey]; [intros; apply A, in_or_app; auto | lra | lra|].
    set (a := big_l l) in *. set (b := big_l r) in *.
    assert (Sa : Rabs (rsum (map val l)) <= a) by (apply (fun H => Rle_trans _ _ _ H (Rle_refl a)); rewrite <- (Rminus_0_r (rsum (map val l))); replace 0 with (rsum (map (fun _ : float => 0) l)) by (rewrite rsum_const; ring); apply rsum_abs; intros; rewrite Rminus_0_r; lra).
    assert (Sb : Rabs (rsum (map val r)) <= b) by (apply (fun H => Rle_trans _ _ _ H (Rle_refl b)); rewrite <- (Rminus_0_r (rsum (map val r))); replace 0 with (rsum (map (fun _ : float => 0) r)) by (rewrite rsum_const; ring); apply rsum_abs; intros; rewrite Rminus_0_r; lra).
    assert (Ka : 2 * (k * ee) * a <= a) by (rewrite <- (Rmult_1_l a) at 2; apply Rmult_le_compat_r; lra). assert (Jb : 2 * (j * ee) * b <= b) by (rewrite <- (Rmult_1_l b) at 2; apply Rmult_le_compat_r; lra).
    apply Rabs_le_inv in Ex, Ey, Sa, Sb. assert (S : Rabs (val x + val y) <= 2 * (a + b)) by (apply Rabs_le; lra).
    destruct (fadd_ok x y Nx Ny) as [Nz Vz]; [apply in_range; apply Rle_trans with (1 := S); change 1000%Z with (1 + 999)%Z; rewrite bpow_plus; change (bpow radix2 1) with 2; lra|]. split; [exact Nz|].
    rewrite map_app, rsum_app, Vz. pose proof (rnd_plus (val x) (val y) (F64_val x) (F64_val y)) as R. assert (R' : ee * Rabs (val x + val y) <= 2 * ee * a + 2 * ee * b) by (replace (2 * ee * a + 2 * ee * b) with (ee * (2 * (a + b))) by ring; apply Rmult_le_compat_l; lra).
    assert (Q1 : ee * a <= j * ee * a) by (rewrite <- (Rmult_1_l (ee * a)), Rmult_assoc; apply Rmult_le_compat_r; [apply Rmult_le_pos; lra | lra]).
    assert (Q2 : ee * b <= k * ee * b) by (rewrite <- (Rmult_1_l (ee * b)), Rmult_assoc; apply Rmult_le_compat_r; [apply Rmult_le_pos; lra | lra]).
    apply Rabs_le_inv in R. apply Rabs_le. replace (2 * ((k + j) * ee) * (a + b)) with (2 * (k * ee) * a + 2 * (j * ee) * b + 2 * (j * ee * a) + 2 * (k * ee * b)) by ring. lra.
  - assert (E1 : length l = length r) by (now apply Permutation_length). assert (E2 : big_l l = big_l r) by (apply rsum_perm, Permutation_map, P). assert (E3 : rsum (map val l) = rsum (map val r)) by (apply rsum_perm, Permutation_map, P).
    rewrite <- E1, <- E2, <- E3 in *. apply IH; auto. intros y Hy. apply A. now apply (Permutation_in _ P).
Qed.

Lemma sqrt_number : forall x, number x -> 0 <= val x -> number (fsqrt x).
Proof.
  intros x N P. destruct (Bsqrt_correct 53 1024 prec53 emax1024 mode_NE x) as (_ & B & _). unfold number, fsqrt. rewrite B. destruct x as [z|z| |[|] mm e b]; try discriminate; try reflexivity.
  exfalso. unfold val in P. cbn in P. assert (F2R (Float radix2 (Z.neg mm) e) < 0) by (apply F2R_lt_0; cbn; lia). lra.
Qed.

(** what the roundings do to the mean square *)
Lemma core : forall e V sp t q s, ee <= e <= / 8192 -> 0 <= V -> Rabs (sp - V) <= ee * V + et -> Rabs (t - sp) <= 2 * e * sp -> 0 <= t -> Rabs (q - t) <= ee * t + et -> 0 <= q ->
  Rabs (s - sqrt q) <= ee * sqrt q + et -> 0 < s -> et <= ee * s -> 7 * et <= ee * (s * s) -> Rabs (V - s * s) <= 25 * e * (s * s).
Proof.
  intros e V sp t q s [E1 E2] V0 Hsp Ht T0 Hq Q0 Hs S0 S1 S2. pose proof ee_small as Es. pose proof et_small as Et. assert (Et0 : et <= ee) by (assert (ee * ee * ee <= 1 * ee) by (apply Rmult_le_compat_r; nra); lra).
  set (X := e * V). assert (X0 : 0 <= X) by (apply Rmult_le_pos; lra). assert (X1 : X <= / 8192 * V) by (apply Rmult_le_compat_r; lra). assert (XV : ee * V <= X) by (apply Rmult_le_compat_r; lra).
  apply Rabs_le_inv in Hsp. assert (Hsp' : sp <= V + X + et) by lra.
  assert (Y1 : e * sp <= 2 * X + et) by (apply Rle_trans with (e * (V + X + et)); [apply Rmult_le_compat_l; lra|]; assert (e * X <= / 8192 * X) by (apply Rmult_le_compat_r; lra); assert (e * et <= / 8192 * et) by (apply Rmult_le_compat_r; lra); replace (e * (V + X + et)) with (X + e * X + e * et) by (unfold X; ring); lra).
  apply Rabs_le_inv in Ht. replace (2 * e * sp) with (2 * (e * sp)) in Ht by ring. assert (T1 : t <= V + 5 * X + 3 * et) by lra.
  assert (Y2 : ee * t <= 2 * X + et).
  { apply Rle_trans with (e * t); [apply Rmult_le_compat_r; lra|]. apply Rle_trans with (e * (V + 5 * X + 3 * et)); [apply Rmult_le_compat_l; lra|].
    assert (e * X <= / 8192 * X) by (apply Rmult_le_compat_r; lra). assert (e * et <= / 8192 * et) by (apply Rmult_le_compat_r; lra). replace (e * (V + 5 * X + 3 * et)) with (X + 5 * (e * X) + 3 * (e * et)) by (unfold X; ring). lra. }
  apply Rabs_le_inv in Hq. assert (Q1 : Rabs (q - V) <= 7 * X + 5 * et) by (apply Rabs_le; lra). apply Rabs_le_inv in Q1.
  assert (Y3 : ee * q <= 2 * X + et).
  { apply Rle_trans with (e * q); [apply Rmult_le_compat_r; lra|]. apply Rle_trans with (e * (V + 7 * X + 5 * et)); [apply Rmult_le_compat_l; lra|].
    assert (e * X <= / 8192 * X) by (apply Rmult_le_compat_r; lra). assert (e * et <= / 8192 * et) by (apply Rmult_le_compat_r; lra). replace (e * (V + 7 * X + 5 * et)) with (X + 7 * (e * X) + 5 * (e * et)) by (unfold X; ring). lra. }
  set (r := sqrt q) in *. assert (R0 : 0 <= r) by apply sqrt_pos. assert (R2 : r * r = q) by (apply sqrt_sqrt; exact Q0).
  assert (D : Rabs (s * s - q) <= ee * ((s + r) * (s + r))).
  { rewrite <- R2. replace (s * s - r * r) with ((s - r) * (s + r)) by ring. rewrite Rabs_mult, (Rabs_pos_eq (s + r)) by lra. rewrite <- Rmult_assoc. apply Rmult_le_compat_r; [lra|]. replace (ee * (s + r)) with (ee * s + ee * r) by ring. lra. }
  assert (D2 : (s + r) * (s + r) <= 2 * (s * s) + 2 * q) by (rewrite <- R2; assert (0 <= (s - r) * (s - r)) by apply Rle_0_sqr; lra).
  assert (D3 : ee * ((s + r) * (s + r)) <= 2 * (ee * (s * s)) + 2 * (ee * q)) by (apply Rle_trans with (ee * (2 * (s * s) + 2 * q)); [apply Rmult_le_compat_l; lra | lra]).
  apply Rabs_le_inv in D. set (w := s * s) in *. assert (W0 : 0 < w) by (apply Rmult_lt_0_compat; lra). assert (W1 : ee * w <= e * w) by (apply Rmult_le_compat_r; lra). assert (W2 : e * w <= / 8192 * w) by (apply Rmult_le_compat_r; lra).
  assert (F : Rabs (V - w) <= 11 * X + 3 * (ee * w)) by (apply Rabs_le; lra). apply Rabs_le_inv in F. assert (V2 : V <= 2 * w) by lra.
  assert (X2 : X <= 2 * (e * w)) by (unfold X; apply Rle_trans with (e * (2 * w)); [apply Rmult_le_compat_l; lra | lra]). apply Rabs_le. lra.
Qed.
Lemma square_close : forall z w, Rabs (z - w) <= ee * Rabs w + et -> Rabs (z * z - w * w) <= 4 * ee * (w * w) + 4 * et.
Proof.
  intros z w H. pose proof ee_small as Es. pose proof et_small as Et. assert (Et0 : et <= ee) by (assert (ee * ee * ee <= 1 * ee) by (apply Rmult_le_compat_r; nra); lra).
  set (a := Rabs w) in *. assert (A0 : 0 <= a) by apply Rabs_pos. assert (A2 : w * w = a * a) by (unfold a; rewrite <- Rabs_mult, Rabs_pos_eq; [reflexivity | apply Rle_0_sqr]).
  assert (Hs : Rabs (z + w) <= 2 * a + ee * a + et) by (replace (z + w) with ((z - w) + 2 * w) by ring; eapply Rle_trans; [apply Rabs_triang|]; rewrite Rabs_mult, (Rabs_pos_eq 2) by lra; fold a; lra).
  replace (z * z - w * w) with ((z - w) * (z + w)) by ring. rewrite Rabs_mult, A2. apply Rle_trans with ((ee * a + et) * (2 * a + ee * a + et)); [apply Rmult_le_compat; try apply Rabs_pos; assumption|].
  set (b := a * a). assert (B0 : 0 <= b) by (apply Rmult_le_pos; lra). assert (A1 : 2 * a <= 1 + b) by (assert (0 <= (a - 1) * (a - 1)) by apply Rle_0_sqr; unfold b; lra).
  replace ((ee * a + et) * (2 * a + ee * a + et)) with (2 * (ee * b) + ee * (ee * b) + ee * (et * (2 * a)) + et * (2 * a) + et * et) by (unfold b; ring).
  assert (M1 : et * (2 * a) <= et + et * b) by (apply Rle_trans with (et * (1 + b)); [apply Rmult_le_compat_l; lra | lra]). assert (M2 : et * b <= ee * b) by (apply Rmult_le_compat_r; lra).
  assert (M0 : 0 <= et * (2 * a)) by (apply Rmult_le_pos; lra). assert (EB : 0 <= ee * b) by (apply Rmult_le_pos; lra).
  assert (M3 : ee * (et * (2 * a)) <= / 1000 * (et * (2 * a))) by (apply Rmult_le_compat_r; lra). assert (M4 : ee * (ee * b) <= / 1000 * (ee * b)) by (apply Rmult_le_compat_r; lra). assert (M5 : et * et <= 1 * et) by (apply Rmult_le_compat_r; lra). lra.
Qed.

(** ---- the mean and the deviation *)
Section Stats.
  Variables (total : list float -> float) (Y : list float).
  Hypothesis Ht : forall l, added l (total l).
  Hypothesis HY : data Y.
  Let n : R := INR (length Y).
  Let m : float := mean_f total Y.
  Let dif (y : float) : float := fsub y m.
  Let P (y : float) : float := fmul (dif y) (dif y).
  Let A : R := average (map (fun y => Rabs (val y)) Y).
  Lemma n_ok : 1 <= n /\ n <= bpow radix2 40 /\ 0 <= n * ee <= / 8192.
  Proof.
    destruct HY as (N & L & _). unfold n. assert (K : 1 <= INR (length Y)) by (destruct Y; [congruence|]; cbn [length]; rewrite S_INR; pose proof (pos_INR (length l)); lra).
    assert (K2 : INR (length Y) <= bpow radix2 40) by (rewrite INR_IZR_INZ; change (bpow radix2 40) with (IZR (2 ^ 40)); now apply IZR_le). split; [exact K|]. split; [exact K2|].
    pose proof ee_small. split; [apply Rmult_le_pos; lra|]. change (bpow radix2 40) with 1099511627776 in K2. apply Rle_trans with (1099511627776 * ee); [apply Rmult_le_compat_r; lra|]. unfold ee. lra.
  Qed.
  Lemma n_float : number (of_Z (Z.of_nat (length Y))) /\ val (of_Z (Z.of_nat (length Y))) = n.
  Proof. destruct HY as (_ & L & _). unfold n. rewrite INR_IZR_INZ. apply of_Z_ok. lia. Qed.
  (** dividing a sum by the number of entries *)
  Lemma mean_of : forall Z k, length Z = length Y -> (k <= 900)%Z -> (-1000 <= k)%Z -> (forall y, In y Z -> number y /\ Rabs (val y) <= bpow radix2 k) ->
    let a := average (map (fun y => Rabs (val y)) Z) in
    number (mean_f total Z) /\ 0 <= a <= bpow radix2 k /\ Rabs (val (mean_f total Z)) <= 2 * bpow radix2 k /\
    exists t, Rabs (t - average (map val Z)) <= 2 * (n * ee) * a /\ val (mean_f total Z) = rnd (t) /\ (0 <= t \/ exists y, In y Z /\ val y < 0).
  Proof.
    intros Z k LZ K1 K2 H a. destruct n_ok as (N1 & N2 & N3 & N4). destruct n_float as [Nn Vn]. pose proof ee_small as Es.
    assert (LN : INR (length Z) = n) by (unfold n; now rewrite LZ).
    assert (Bg : big_l Z <= n * bpow radix2 k) by (rewrite <- LN; apply big_bound; intros; now apply H). pose proof (big_pos Z) as Bp. pose proof (bpow_gt_0 radix2 k) as Pk.
    assert (Bt : n * bpow radix2 k <= bpow radix2 999).
    { apply Rle_trans with (bpow radix2 40 * bpow radix2 k); [apply Rmult_le_compat_r; lra|]. rewrite <- bpow_plus. apply bpow_le. lia. }
    destruct (sum_error Z (total Z) (Ht Z)) as [Ns Es']; [intros; now apply H | rewrite LN; exact N4 | lra|]. rewrite LN in Es'.
    assert (Ea : a = big_l Z / n) by (unfold a, average; rewrite map_length, LN; reflexivity). assert (Eb : big_l Z = n * a) by (rewrite Ea; field; lra).
    assert (Ap : 0 <= a) by (rewrite Ea; apply le_div; lra). assert (Ak : a <= bpow radix2 k) by (apply Rmult_le_reg_l with n; lra).
    set (t := val (total Z) / n). assert (Et : val (total Z) = n * t) by (unfold t; field; lra).
    assert (Av : n * average (map val Z) = rsum (map val Z)) by (unfold average; rewrite map_length, LN; field; lra).
    assert (D : Rabs (t - average (map val Z)) <= 2 * (n * ee) * a).
    { apply Rmult_le_reg_l with n; [lra|]. rewrite <- (Rabs_pos_eq n) at 1 by lra. rewrite <- Rabs_mult. replace (n * (t - average (map val Z))) with (val (total Z) - rsum (map val Z)) by (rewrite Et, <- Av; ring).
      apply Rle_trans with (1 := Es'). rewrite Eb. right. ring. }
    assert (Sv : Rabs (average (map val Z)) <= a).
    { apply Rmult_le_reg_l with n; [lra|]. rewrite <- (Rabs_pos_eq n) at 1 by lra. rewrite <- Rabs_mult, Av, <- Eb. rewrite <- (Rminus_0_r (rsum (map val Z))). replace 0 with (rsum (map (fun _ : float => 0) Z)) by (rewrite rsum_const; ring). apply rsum_abs. intros. rewrite Rminus_0_r. lra. }
    assert (Q : 2 * (n * ee) * a <= a) by (rewrite <- (Rmult_1_l a) at 2; apply Rmult_le_compat_r; lra).
    assert (T : Rabs t <= 2 * bpow radix2 k) by (apply Rabs_le_inv in D, Sv; apply Rabs_le; lra).
    assert (T' : 2 * bpow radix2 k = bpow radix2 (k + 1)) by (rewrite bpow_plus; change (bpow radix2 1) with 2; ring).
    assert (V : Rabs (rnd t) <= 2 * bpow radix2 k) by (rewrite T' in *; apply rnd_bound; [lia | exact T]).
    destruct (fdiv_ok (total Z) (of_Z (Z.of_nat (length Z))) Ns) as [Nm Vm]; [rewrite LZ, Vn; lra | rewrite LZ, Vn; fold t; apply Rle_lt_trans with (1 := V); rewrite T'; apply bpow_lt; lia|].
    rewrite LZ, Vn in Vm. fold t in Vm. assert (Em : mean_f total Z = fdiv (total Z) (of_Z (Z.of_nat (length Y)))) by (unfold mean_f; now rewrite LZ). rewrite LZ in Nm. rewrite Em, Vm. split; [exact Nm|]. split; [lra|]. split; [exact V|].
    exists t. split; [exact D|]. split; [reflexivity|]. destruct (Rle_lt_dec 0 t) as [G|G]; [left; exact G|right].
    destruct (List.Exists_dec (fun y => val y < 0) Z (fun y => Rlt_dec (val y) 0)) as [X|X]; [apply Exists_exists in X; exact X|]. exfalso.
    assert (E : average (map val Z) = a) by (unfold a, average; rewrite !map_length; f_equal; f_equal; apply map_ext_in; intros y Hy; symmetry; apply Rabs_pos_eq; apply Rnot_lt_le; intro; apply X, Exists_exists; eauto).
    rewrite E in D. apply Rabs_le_inv in D. lra.
  Qed.
  Lemma mean_ok : number m /\ Rabs (val m) <= 2 * bpow radix2 400 /\ 0 <= A <= bpow radix2 400 /\ Rabs (val m - average (map val Y)) <= 4 * (n * ee) * A + et.
  Proof.
    destruct HY as (_ & _ & H). destruct (mean_of Y 400 eq_refl ltac:(lia) ltac:(lia) H) as (N & Ba & Bm & t & D & V & _). fold m in N, Bm, V. fold A in Ba, D. split; [exact N|]. split; [exact Bm|]. split; [exact Ba|].
    destruct n_ok as (N1 & N2 & N3 & N4). pose proof ee_small as Es.
    assert (Sv : Rabs (average (map val Y)) <= A).
    { unfold A, average. rewrite !map_length. fold n. unfold Rdiv. rewrite Rabs_mult, (Rabs_pos_eq (/ n)) by (left; apply Rinv_0_lt_compat; lra). apply Rmult_le_compat_r; [left; apply Rinv_0_lt_compat; lra|].
      rewrite <- (Rminus_0_r (rsum (map val Y))). replace 0 with (rsum (map (fun _ : float => 0) Y)) by (rewrite rsum_const; ring). apply rsum_abs. intros. rewrite Rminus_0_r. lra. }
    assert (Q : 2 * (n * ee) * A <= A) by (rewrite <- (Rmult_1_l A) at 2; apply Rmult_le_compat_r; lra).
    assert (Q2 : ee * A <= n * ee * A) by (rewrite <- (Rmult_1_l (ee * A)), Rmult_assoc; apply Rmult_le_compat_r; [apply Rmult_le_pos; lra | lra]).
    assert (T : Rabs t <= 2 * A) by (apply Rabs_le_inv in D, Sv; apply Rabs_le; lra). pose proof (rerr t _ T) as R. rewrite <- V in R. apply Rabs_le_inv in R, D. apply Rabs_le.
    replace (ee * (2 * A)) with (2 * (ee * A)) in R by ring. replace (4 * (n * ee) * A) with (2 * (n * ee) * A + 2 * (n * ee * A)) by ring. lra.
  Qed.
  Lemma dif_ok : forall y, In y Y -> number (dif y) /\ val (dif y) = rnd (val y - val m) /\ Rabs (val (dif y)) <= bpow radix2 402.
  Proof.
    intros y Hy. destruct HY as (_ & _ & H). destruct (H y Hy) as [Ny By]. destruct mean_ok as (Nm & Bm & _).
    assert (B : Rabs (val y - val m) <= bpow radix2 402).
    { replace (bpow radix2 402) with (4 * bpow radix2 400) by (change 402%Z with (2 + 400)%Z; rewrite bpow_plus; reflexivity). pose proof (bpow_gt_0 radix2 400). apply Rabs_le_inv in By, Bm. apply Rabs_le. lra. }
    assert (B' : Rabs (rnd (val y - val m)) <= bpow radix2 402) by (apply rnd_bound; [lia | exact B]).
    destruct (fsub_ok y m Ny Nm) as [N V]; [apply Rle_lt_trans with (1 := B'); apply bpow_lt; lia|]. split; [exact N|]. split; [exact V|]. unfold dif. rewrite V. exact B'.
  Qed.
  Lemma P_ok : forall y, In y Y -> number (P y) /\ 0 <= val (P y) /\ Rabs (val (P y)) <= bpow radix2 804 /\ Rabs (val (P y) - val (dif y) * val (dif y)) <= ee * (val (dif y) * val (dif y)) + et.
  Proof.
    intros y Hy. destruct (dif_ok y Hy) as (N & _ & B). assert (S0 : 0 <= val (dif y) * val (dif y)) by apply Rle_0_sqr.
    assert (S : Rabs (val (dif y) * val (dif y)) <= bpow radix2 804).
    { rewrite Rabs_mult. change 804%Z with (402 + 402)%Z. rewrite bpow_plus. apply Rmult_le_compat; try apply Rabs_pos; exact B. }
    assert (B' : Rabs (rnd (val (dif y) * val (dif y))) <= bpow radix2 804) by (apply rnd_bound; [lia | exact S]).
    destruct (fmul_ok (dif y) (dif y) N N) as [Np Vp]; [apply Rle_lt_trans with (1 := B'); apply bpow_lt; lia|]. unfold P. rewrite Vp. split; [exact Np|]. split; [rewrite <- rnd_0; now apply rnd_mono|]. split; [exact B'|].
    apply rerr. rewrite Rabs_pos_eq by exact S0. lra.
  Qed.
  Let V : R := average (map (fun y => val (dif y) * val (dif y)) Y).
  Let q : float := mean_f total (map P Y).
  Let s : float := std_f total Y.
  Lemma s_def : s = fsqrt q.
  Proof. reflexivity. Qed.
  Lemma q_ok : number q /\ 0 <= val q /\ val q <= bpow radix2 805 /\ exists t sp, Rabs (sp - V) <= ee * V + et /\ Rabs (t - sp) <= 2 * (n * ee) * sp /\ val q = rnd t /\ 0 <= t.
  Proof.
    destruct n_ok as (N1 & N2 & N3 & N4).
    assert (H : forall z, In z (map P Y) -> number z /\ Rabs (val z) <= bpow radix2 804) by (intros z Hz; apply in_map_iff in Hz as (y & <- & Hy); destruct (P_ok y Hy) as (a & _ & b & _); auto).
    destruct (mean_of (map P Y) 804 (map_length _ _) ltac:(lia) ltac:(lia) H) as (N & Ba & Bm & t & D & Vq & G). fold q in N, Bm, Vq.
    assert (G' : 0 <= t) by (destruct G as [G|(z & Hz & Lz)]; [exact G|]; apply in_map_iff in Hz as (y & <- & Hy); destruct (P_ok y Hy) as (_ & b & _); lra).
    assert (Q0 : 0 <= val q) by (rewrite Vq, <- rnd_0; now apply rnd_mono). split; [exact N|]. split; [exact Q0|]. split; [rewrite Rabs_pos_eq in Bm by exact Q0; change 805%Z with (1 + 804)%Z; rewrite bpow_plus; exact Bm|].
    exists t, (average (map val (map P Y))). assert (E : map (fun y => Rabs (val y)) (map P Y) = map val (map P Y)) by (apply map_ext_in; intros z Hz; apply in_map_iff in Hz as (y & <- & Hy); destruct (P_ok y Hy) as (_ & b & _); now apply Rabs_pos_eq).
    rewrite E in D. split; [|split; [exact D | split; [exact Vq | exact G']]]. rewrite map_map. unfold V, average. rewrite !map_length. fold n.
    apply Rmult_le_reg_l with n; [lra|]. rewrite <- (Rabs_pos_eq n) at 1 by lra. rewrite <- Rabs_mult.
    set (a := rsum (map (fun x => val (P x)) Y)). set (b := rsum (map (fun y => val (dif y) * val (dif y)) Y)).
    replace (n * (a / n - b / n)) with (a - b) by (field; lra). replace (n * (ee * (b / n) + et)) with (ee * b + n * et) by (field; lra).
    apply Rle_trans with (rsum (map (fun y => ee * (val (dif y) * val (dif y)) + et) Y)).
    - apply rsum_abs. intros y Hy. now apply P_ok.
    - rewrite rsum_plus, rsum_scale, rsum_const. fold b n. lra.
  Qed.
  Lemma V_pos : 0 <= V.
  Proof.
    destruct n_ok as (N1 & _). unfold V, average. rewrite map_length. fold n. apply le_div; [lra|]. rewrite Rmult_0_l. replace 0 with (rsum (map (fun _ : float => 0) Y)) by (rewrite rsum_const; ring). apply rsum_le. intros. apply Rle_0_sqr.
  Qed.
  Lemma s_ok : number s /\ 0 <= val s /\ val s <= bpow radix2 403 /\ val s = rnd (sqrt (val q)) /\ (0 < val s -> bpow radix2 (-537) <= val s).
  Proof.
    destruct q_ok as (N & Q0 & Q1 & _). assert (Vs : val s = rnd (sqrt (val q))) by (rewrite s_def; apply fsqrt_finite).
    assert (Ns : number s) by (rewrite s_def; now apply sqrt_number).
    split; [exact Ns|]. assert (P0 : 0 <= val s) by (rewrite Vs, <- rnd_0; apply rnd_mono, sqrt_pos). split; [exact P0|]. split.
    - rewrite <- (Rabs_pos_eq (val s)) by exact P0. rewrite Vs. apply rnd_bound; [lia|]. rewrite Rabs_pos_eq by apply sqrt_pos. rewrite <- (sqrt_square (bpow radix2 403)) by apply bpow_ge_0. apply sqrt_le_1_alt. rewrite <- bpow_plus. apply Rle_trans with (1 := Q1). apply bpow_le. lia.
    - split; [exact Vs|]. intros L. assert (Qp : 0 < val q).
      { destruct Q0 as [Q0|Q0]; [exact Q0|]. rewrite Vs, <- Q0, sqrt_0, rnd_0 in L. lra. }
      assert (Qm : bpow radix2 (-1074) <= val q) by (apply F64_pos_min; [apply F64_val | exact Qp]).
      rewrite Vs, <- (rnd_F (bpow radix2 (-537))) by (apply F64_bpow; lia). apply rnd_mono. rewrite <- (sqrt_square (bpow radix2 (-537))) by apply bpow_ge_0. apply sqrt_le_1_alt. rewrite <- bpow_plus. exact Qm.
  Qed.

  Lemma normal_eq : normalize_f total Y = map (fun y => if flt f0 s then fdiv (dif y) s else dif y) Y.
  Proof. reflexivity. Qed.
  Lemma z_ok : 0 < val s -> forall y, In y Y -> number (fdiv (dif y) s) /\ val (fdiv (dif y) s) = rnd (val (dif y) / val s).
  Proof.
    intros L y Hy. destruct s_ok as (Ns & _ & _ & _ & Sm). specialize (Sm L). destruct (dif_ok y Hy) as (Nd & _ & Bd). apply fdiv_ok; [exact Nd | lra|]. apply in_range.
    unfold Rdiv. rewrite Rabs_mult, (Rabs_pos_eq (/ val s)) by (left; now apply Rinv_0_lt_compat). apply Rle_trans with (bpow radix2 402 * bpow radix2 537).
    - apply Rmult_le_compat; [apply Rabs_pos | left; now apply Rinv_0_lt_compat | exact Bd|]. rewrite <- (Rinv_inv (bpow radix2 537)). apply Rinv_le; [apply Rinv_0_lt_compat, bpow_gt_0|].
      rewrite <- bpow_opp. exact Sm.
    - rewrite <- bpow_plus. apply bpow_le. lia.
  Qed.
  Lemma normal_numbers : forall z, In z (normalize_f total Y) -> number z.
  Proof.
    intros z. rewrite normal_eq. intros Hz. apply in_map_iff in Hz as (y & <- & Hy). destruct f0_ok as [N0 V0]. destruct s_ok as (Ns & _). rewrite (flt_ok _ _ N0 Ns), V0.
    destruct (Rlt_bool_spec 0 (val s)) as [L|L]; [now apply z_ok | now apply dif_ok].
  Qed.
  Lemma s_facts : bpow radix2 (-450) <= val s -> 0 < val s /\ et <= ee * val s /\ 7 * et <= ee * (val s * val s) /\ flt f0 s = true.
  Proof.
    intros H. pose proof (bpow_gt_0 radix2 (-450)) as B. assert (L : 0 < val s) by lra. split; [exact L|].
    assert (K : bpow radix2 (-900) <= val s * val s) by (change (-900)%Z with (-450 + -450)%Z; rewrite bpow_plus; apply Rmult_le_compat; lra).
    assert (E1 : et <= ee * bpow radix2 (-450)) by (rewrite <- ee_pow, <- bpow_plus; apply bpow_le; lia).
    assert (E2 : 7 * et <= ee * bpow radix2 (-900)) by (apply Rle_trans with (bpow radix2 3 * et); [change (bpow radix2 3) with 8; pose proof et_small; lra|]; unfold et; rewrite <- ee_pow, <- !bpow_plus; apply bpow_le; lia).
    pose proof ee_small. split; [apply Rle_trans with (1 := E1), Rmult_le_compat_l; lra|]. split; [apply Rle_trans with (1 := E2), Rmult_le_compat_l; lra|].
    destruct f0_ok as [N0 V0]. destruct s_ok as (Ns & _). rewrite (flt_ok _ _ N0 Ns), V0. now apply Rlt_bool_true.
  Qed.
  Lemma V_close : bpow radix2 (-450) <= val s -> Rabs (V - val s * val s) <= 25 * (n * ee) * (val s * val s).
  Proof.
    intros H. destruct (s_facts H) as (L & E1 & E2 & _). destruct n_ok as (N1 & N2 & N3 & N4). pose proof ee_small as Es. destruct q_ok as (Nq & Q0 & _ & t & sp & A1 & A2 & A3 & A4). destruct s_ok as (_ & _ & _ & Vs & _).
    apply (core (n * ee) V sp t (val q) (val s)); auto.
    - split; [rewrite <- (Rmult_1_l ee) at 1; apply Rmult_le_compat_r; lra | exact N4].
    - apply V_pos.
    - rewrite A3. apply rerr. rewrite Rabs_pos_eq by exact A4. lra.
    - rewrite Vs. apply rerr. rewrite Rabs_pos_eq by apply sqrt_pos. lra.
  Qed.
  Lemma over_n : forall f : float -> R, rsum (map f Y) = n * average (map f Y).
  Proof. intros f. destruct n_ok as (N1 & _). unfold average. rewrite map_length. fold n. field. lra. Qed.
  Lemma average_close : forall f g h : float -> R, (forall y, In y Y -> Rabs (f y - g y) <= h y) -> Rabs (average (map f Y) - average (map g Y)) <= average (map h Y).
  Proof.
    intros f g h H. destruct n_ok as (N1 & _). apply Rmult_le_reg_l with n; [lra|]. rewrite <- (Rabs_pos_eq n) at 1 by lra. rewrite <- Rabs_mult, Rmult_minus_distr_l, <- !over_n. now apply rsum_abs.
  Qed.
  Lemma average_lin : forall (f : float -> R) c k, average (map (fun y => c * f y + k) Y) = c * average (map f Y) + k.
  Proof. intros f c k. destruct n_ok as (N1 & _). apply Rmult_eq_reg_l with n; [|lra]. rewrite <- over_n, rsum_plus, rsum_scale, rsum_const. fold n. rewrite (over_n f). ring. Qed.
  Lemma normal_vals : forall f : R -> R, bpow radix2 (-450) <= val s -> map (fun z => f (val z)) (normalize_f total Y) = map (fun y => f (rnd (val (dif y) / val s))) Y.
  Proof.
    intros f H. destruct (s_facts H) as (L & _ & _ & E). rewrite normal_eq, map_map. apply map_ext_in. intros y Hy. rewrite E. f_equal. now apply z_ok.
  Qed.
  Lemma unit_square : bpow radix2 (-450) <= val s -> Rabs (average (map (fun z => val z * val z) (normalize_f total Y)) - 1) <= n * bpow radix2 (-48).
  Proof.
    intros H. destruct (s_facts H) as (L & E1 & E2 & _). destruct n_ok as (N1 & N2 & N3 & N4). pose proof ee_small as Es. pose proof et_small as Et.
    rewrite (normal_vals (fun r => r * r) H). pose proof (V_close H) as C. set (w := val s * val s) in *. assert (W0 : 0 < w) by (apply Rmult_lt_0_compat; lra).
    set (g := fun y => / w * (val (dif y) * val (dif y)) + 0). assert (Eg : average (map g Y) = V / w) by (unfold g; rewrite average_lin; unfold V; field; lra).
    set (W := V / w) in *. assert (Ew : V = W * w) by (unfold W; field; lra). rewrite Ew in C. replace (W * w - w) with ((W - 1) * w) in C by ring. rewrite Rabs_mult, (Rabs_pos_eq w) in C by lra. apply Rmult_le_reg_r in C; [|exact W0].
    assert (D : Rabs (average (map (fun y => rnd (val (dif y) / val s) * rnd (val (dif y) / val s)) Y) - average (map g Y)) <= average (map (fun y => (4 * ee) * g y + 4 * et) Y)).
    { apply average_close. intros y _. replace (g y) with (val (dif y) / val s * (val (dif y) / val s)) by (unfold g, w; field; lra). apply square_close. apply rerr. lra. }
    rewrite average_lin, Eg in D. set (Z := average _) in *. apply Rabs_le_inv in C, D. set (e := n * ee) in *. assert (Ee : ee <= e) by (unfold e; rewrite <- (Rmult_1_l ee) at 1; apply Rmult_le_compat_r; lra).
    assert (WB : W <= 2) by lra. assert (M : 4 * ee * W <= 8 * ee) by (replace (8 * ee) with (4 * ee * 2) by ring; apply Rmult_le_compat_l; lra) .
    assert (Wp : 0 <= W) by lra. assert (M4 : ee * W <= ee * (1 + / 100)) by (apply Rmult_le_compat_l; lra).
    assert (Et0 : et <= / 1000 * ee) by (assert (ee * ee * ee <= / 1000 * ee) by (apply Rmult_le_compat_r; nra); lra).
    replace (n * bpow radix2 (-48)) with (32 * e) by (unfold e; change (-48)%Z with (5 + -53)%Z; rewrite bpow_plus, ee_pow; change (bpow radix2 5) with 32; ring). apply Rabs_le. lra.
  Qed.
  Lemma zero_mean : bpow radix2 (-450) <= val s -> Rabs (average (map val (normalize_f total Y))) <= n * bpow radix2 (-49) * A / val s + bpow radix2 (-600).
  Proof.
    intros H. destruct (s_facts H) as (L & E1 & E2 & _). destruct n_ok as (N1 & N2 & N3 & N4). pose proof ee_small as Es. pose proof et_small as Et. destruct mean_ok as (Nm & _ & [A0 _] & Dm).
    rewrite (normal_vals (fun r => r) H : map val (normalize_f total Y) = _). set (e := n * ee) in *. assert (Ee : ee <= e) by (unfold e; rewrite <- (Rmult_1_l ee) at 1; apply Rmult_le_compat_r; lra).
    assert (EA : 0 <= e * A) by (apply Rmult_le_pos; lra). assert (EA' : e * A <= / 8192 * A) by (apply Rmult_le_compat_r; lra). assert (eA : ee * A <= e * A) by (apply Rmult_le_compat_r; lra). assert (eA0 : 0 <= ee * A) by (apply Rmult_le_pos; lra). assert (et0 : ee * et <= / 1000 * et) by (apply Rmult_le_compat_r; lra).
    set (mu := average (map val Y)) in *. assert (Av : forall f : float -> R, average (map (fun y => f y) Y) = average (map f Y)) by reflexivity.
    assert (Mu : Rabs mu <= A).
    { pose proof (average_close val (fun y => 0 * val y + 0) (fun y => Rabs (val y))) as K. rewrite average_lin in K. fold mu A in K. rewrite Rmult_0_l, Rplus_0_l, Rminus_0_r in K. apply K. intros y _. rewrite Rmult_0_l, Rplus_0_l, Rminus_0_r. lra. }
    replace (4 * (n * ee) * A) with (4 * (e * A)) in Dm by (unfold e; ring). apply Rabs_le_inv in Dm, Mu. set (am := Rabs (val m)). assert (Am : am <= 2 * A + et) by (apply Rabs_le; lra).
    assert (Am0 : 0 <= am) by apply Rabs_pos.
    assert (DD : forall y, In y Y -> Rabs (val (dif y) - (1 * val y + - val m)) <= ee * Rabs (val y) + ee * am).
    { intros y Hy. destruct (dif_ok y Hy) as (_ & Vd & _). rewrite Vd. replace (1 * val y + - val m) with (val y - val m) by ring.
      apply Rle_trans with (1 := rnd_plus (val y) (- val m) (F64_val y) (generic_format_opp _ _ _ (F64_val m))). replace (ee * Rabs (val y) + ee * am) with (ee * (Rabs (val y) + am)) by ring. apply Rmult_le_compat_l; [lra|].
      unfold am. rewrite <- (Rabs_Ropp (val m)). apply Rabs_triang. }
    pose proof (average_close _ _ _ DD) as C1. rewrite !average_lin in C1. fold mu A in C1.
    assert (M1 : ee * am <= 2 * (ee * A) + / 1000 * et) by (apply Rle_trans with (ee * (2 * A + et)); [apply Rmult_le_compat_l; lra | lra]).
    set (ad := average (map (fun y => val (dif y)) Y)). change (average (map (fun y => val (dif y)) Y)) with ad in C1. apply Rabs_le_inv in C1. assert (Ad : Rabs ad <= 7 * (e * A) + 2 * et) by (apply Rabs_le; lra).
    set (f := fun y => / val s * val (dif y) + 0).
    assert (C2 : Rabs (average (map (fun y => rnd (val (dif y) / val s)) Y) - average (map f Y)) <= average (map (fun y => (ee / val s * 2) * Rabs (val y) + (ee / val s * (2 * am) + et)) Y)).
    { apply average_close. intros y Hy. replace (f y) with (val (dif y) / val s) by (unfold f; field; lra). eapply Rle_trans; [apply (rerr _ (Rabs (val (dif y) / val s))); lra|].
      specialize (DD y Hy). assert (B : Rabs (val (dif y)) <= 2 * Rabs (val y) + 2 * am).
      { replace (val (dif y)) with ((val (dif y) - (1 * val y + - val m)) + (val y + - val m)) by ring. eapply Rle_trans; [apply Rabs_triang|]. pose proof (Rabs_triang (val y) (- val m)) as T. rewrite Rabs_Ropp in T. fold am in T.
        assert (ee * Rabs (val y) <= 1 * Rabs (val y)) by (apply Rmult_le_compat_r; [apply Rabs_pos | lra]). assert (ee * am <= 1 * am) by (apply Rmult_le_compat_r; lra). lra. }
      unfold Rdiv. rewrite Rabs_mult, (Rabs_pos_eq (/ val s)) by (left; now apply Rinv_0_lt_compat). apply Rle_trans with (ee * ((2 * Rabs (val y) + 2 * am) * / val s) + et); [|right; ring].
      apply Rplus_le_compat_r, Rmult_le_compat_l; [lra|]. apply Rmult_le_compat_r; [left; now apply Rinv_0_lt_compat | exact B]. }
    unfold f in C2. rewrite !average_lin in C2. fold ad A in C2.
    assert (I0 : 0 < / val s) by (now apply Rinv_0_lt_compat). set (i := / val s) in *.
    assert (B1 : Rabs (i * ad) <= i * (7 * (e * A) + 2 * et)) by (rewrite Rabs_mult, (Rabs_pos_eq i) by lra; apply Rmult_le_compat_l; lra).
    assert (B2 : ee / val s * 2 * A + (ee / val s * (2 * am) + et) <= i * (6 * (e * A) + et) + et).
    { unfold Rdiv. fold i. replace (ee * i * 2 * A + (ee * i * (2 * am) + et)) with (i * (2 * (ee * A) + 2 * (ee * am)) + et) by ring. apply Rplus_le_compat_r, Rmult_le_compat_l; lra. }
    assert (B3 : i * et <= bpow radix2 (-625)).
    { apply Rle_trans with (bpow radix2 450 * et); [apply Rmult_le_compat_r; [lra|]; unfold i; replace (bpow radix2 450) with (/ bpow radix2 (-450)) by (rewrite <- bpow_opp; reflexivity); apply Rinv_le; [apply bpow_gt_0 | exact H]|]. unfold et. rewrite <- bpow_plus. apply bpow_le. lia. }
    assert (B4 : et <= bpow radix2 (-625)) by (apply bpow_le; lia). assert (B5 : 4 * bpow radix2 (-625) <= bpow radix2 (-600)) by (change 4 with (bpow radix2 2); rewrite <- bpow_plus; apply bpow_le; lia).
    apply Rabs_le_inv in C2, B1. assert (Q : n * bpow radix2 (-49) * A / val s = i * (16 * (e * A))) by (unfold Rdiv; fold i; unfold e; change (-49)%Z with (4 + -53)%Z; rewrite bpow_plus, ee_pow; change (bpow radix2 4) with 16; ring).
    rewrite Q. assert (K : 0 <= i * (e * A)) by (apply Rmult_le_pos; lra). apply Rabs_le. lra.
  Qed.
End Stats.

(** ---- squares that overflow or vanish *)
Lemma square_inf : forall d, number d -> bpow radix2 512 <= Rabs (val d) -> fmul d d = B754_infinity false.
Proof.
  intros d N H. pose proof (Bmult_correct 53 1024 prec53 emax1024 mode_NE d d) as B. assert (K : bpow radix2 1024 <= val d * val d).
  { change 1024%Z with (512 + 512)%Z. rewrite bpow_plus. rewrite <- (Rabs_pos_eq (val d * val d)) by apply Rle_0_sqr. rewrite Rabs_mult. apply Rmult_le_compat; try apply bpow_ge_0; exact H. }
  rewrite Rlt_bool_false in B.
  - unfold fmul, binary_overflow in *. cbn in B. rewrite xorb_nilpotent in B. destruct (Bmult mode_NE d d) as [s|s| |s m e Hb]; try discriminate B. now injection B as ->.
  - rewrite Rabs_pos_eq.
    + assert (M : rnd (bpow radix2 1024) <= rnd (val d * val d)) by (apply rnd_mono; exact K). rewrite rnd_F in M by (apply F64_bpow; lia). exact M.
    + change 0 with (IZR 0). rewrite <- rnd_0. apply rnd_mono, Rle_0_sqr.
Qed.
Section Extreme.
  Variables (total : list float -> float) (Y : list float).
  Hypothesis Ht : forall l, added l (total l).
  Hypothesis L53 : (Z.of_nat (length Y) <= 2 ^ 53)%Z.
  Hypothesis HD : forall y, In y Y -> number (fsub y (mean_f total Y)).
  Let dif (y : float) : float := fsub y (mean_f total Y).
  Let P (y : float) : float := fmul (dif y) (dif y).
  Lemma squares_nn : forall b, In b (map P Y) -> nn b.
  Proof. intros b Hb. apply in_map_iff in Hb as (y & <- & Hy). apply nn_square, not_nan. now apply HD. Qed.
  Lemma count_ok : Y <> [] -> number (of_Z (Z.of_nat (length Y))) /\ 0 < val (of_Z (Z.of_nat (length Y))).
  Proof.
    intros N. destruct (of_Z_ok (Z.of_nat (length Y))) as [A B]; [lia|]. split; [exact A|]. rewrite B. apply (IZR_lt 0). destruct Y; [congruence|]. cbn [length]. lia.
  Qed.
  Lemma overflowing : (exists y, In y Y /\ bpow radix2 512 <= Rabs (val (dif y))) -> forall z, In z (normalize_f total Y) -> number z /\ val z = 0.
  Proof.
    intros (y0 & Hy0 & B) z Hz. destruct (added_nn _ _ (Ht (map P Y)) squares_nn) as (N & E & _).
    assert (I : total (map P Y) = B754_infinity false).
    { destruct N as [[N1 N2]|N]; [exfalso|exact N]. specialize (E (P y0) (in_map _ _ _ Hy0)). assert (E1 : P y0 = B754_infinity false) by (apply square_inf; [apply HD; exact Hy0 | exact B]). rewrite E1 in E.
      assert (X : ext (total (map P Y)) = val (total (map P Y))) by (unfold ext; now rewrite N1). rewrite X in E. change (ext (B754_infinity false)) with (bpow radix2 1024) in E. pose proof (val_lt (total (map P Y))) as V. apply Rabs_def2 in V. lra. }
    destruct (count_ok ltac:(intros ->; destruct Hy0)) as [Nn Pn]. destruct (pos_form _ Nn Pn) as (mm & e & b & En).
    assert (S : std_f total Y = B754_infinity false) by (unfold std_f; fold P; unfold mean_f at 1; change (map _ Y) with (map P Y); rewrite I, map_length, En; reflexivity).
    unfold normalize_f, normalize_stats in Hz. rewrite S in Hz. apply in_map_iff in Hz as (y & <- & Hy). cbn zeta. specialize (HD y Hy).
    change (flt f0 (B754_infinity false)) with true. destruct (fsub y (mean_f total Y)) as [[|]|[|]| |[|] m' e' b']; try discriminate; split; reflexivity.
  Qed.
  Lemma vanishing : Y <> [] -> (forall y, In y Y -> Rabs (val (dif y)) <= bpow radix2 (-538)) -> normalize_f total Y = map dif Y.
  Proof.
    intros NE B. assert (Z : forall b, In b (map P Y) -> number b /\ val b = 0).
    { intros b Hb. apply in_map_iff in Hb as (y & <- & Hy). specialize (B y Hy). specialize (HD y Hy). fold (dif y) in HD.
      assert (S : 0 <= val (dif y) * val (dif y) <= bpow radix2 (-1076)).
      { split; [apply Rle_0_sqr|]. rewrite <- (Rabs_pos_eq (val (dif y) * val (dif y))) by apply Rle_0_sqr. rewrite Rabs_mult. change (-1076)%Z with (-538 + -538)%Z. rewrite bpow_plus. apply Rmult_le_compat; try apply Rabs_pos; exact B. }
      destruct (fmul_ok (dif y) (dif y) HD HD) as [N V]; [rewrite (rnd_tiny _ S), Rabs_R0; apply bpow_gt_0|]. split; [exact N|]. unfold P. rewrite V. now apply rnd_tiny. }
    destruct (added_nn _ _ (Ht (map P Y)) squares_nn) as (N & _ & E). assert (E0 : ext (total (map P Y)) = 0) by (apply E; intros b Hb; destruct (Z b Hb) as [Nb Vb]; unfold ext; now rewrite Nb).
    assert (T : number (total (map P Y)) /\ val (total (map P Y)) = 0).
    { destruct N as [[N1 N2]|N]; [unfold ext in E0; rewrite N1 in E0; auto|]. rewrite N in E0. unfold ext in E0. cbn [is_finite] in E0. pose proof (bpow_gt_0 radix2 1024). lra. }
    destruct T as [T1 T2]. destruct (count_ok NE) as [Nn Pn]. destruct (fdiv_ok (total (map P Y)) (of_Z (Z.of_nat (length Y))) T1) as [Q1 Q2]; [lra | rewrite T2; unfold Rdiv; rewrite Rmult_0_l, rnd_0, Rabs_R0; apply bpow_gt_0|].
    rewrite T2 in Q2. unfold Rdiv in Q2. rewrite Rmult_0_l, rnd_0 in Q2.
    assert (S : number (std_f total Y) /\ val (std_f total Y) = 0).
    { assert (Eq : std_f total Y = fsqrt (fdiv (total (map P Y)) (of_Z (Z.of_nat (length Y))))) by (unfold std_f, mean_f at 1; now rewrite map_length). rewrite Eq. split; [apply sqrt_number; [exact Q1 | lra]|]. rewrite fsqrt_finite, Q2, sqrt_0, rnd_0. reflexivity. }
    unfold normalize_f, normalize_stats. destruct f0_ok as [N0 V0]. rewrite (flt_ok _ _ N0 (proj1 S)), V0, (proj2 S), Rlt_bool_false by lra. reflexivity.
  Qed.
End Extreme.

(** ---- equal observations *)
Lemma sum_integers : forall c l x, added l x -> (forall y, In y l -> number y /\ val y = IZR c) -> (Z.of_nat (length l) * Z.abs c <= 2 ^ 53)%Z -> number x /\ val x = IZR (Z.of_nat (length l) * c).
Proof.
  intros c l x H. induction H as [|x|l r x y Hl Hr H1 IH1 H2 IH2|l r x P H IH]; intros A B.
  - destruct f0_ok as [Z V]. split; [exact Z|]. rewrite V. reflexivity.
  - destruct (A x (or_introl eq_refl)) as [N V]. split; [exact N|]. rewrite V. f_equal. cbn [length]. lia.
  - rewrite app_length in *. assert (C : (0 <= Z.of_nat (length l) * Z.abs c)%Z) by lia. assert (D : (0 <= Z.of_nat (length r) * Z.abs c)%Z) by lia. rewrite Nat2Z.inj_add, Z.mul_add_distr_r in B |- *.
    destruct IH1 as [Nx Vx]; [intros; apply A, in_or_app; auto | lia|]. destruct IH2 as [Ny Vy]; [intros; apply A, in_or_app; auto | lia|].
    assert (F : F64 (val x + val y)) by (rewrite Vx, Vy, <- plus_IZR; apply F64_IZR; lia).
    destruct (fadd_ok x y Nx Ny) as [N V]; [rewrite rnd_F by exact F; rewrite Vx, Vy, <- plus_IZR, <- abs_IZR; apply Rle_lt_trans with (IZR (2 ^ 53)); [apply IZR_le; lia | change (IZR (2 ^ 53)) with (bpow radix2 53); apply bpow_lt; lia]|].
    split; [exact N|]. rewrite V, rnd_F by exact F. rewrite Vx, Vy, <- plus_IZR. reflexivity.
  - assert (E : length l = length r) by (now apply Permutation_length). rewrite <- E in *. apply IH; [|exact B]. intros y Hy. apply A. now apply (Permutation_in _ P).
Qed.
Lemma equal_mean : forall total Y c, (forall l, added l (total l)) -> Y <> [] -> (forall y, In y Y -> number y /\ val y = c) -> number (total Y) -> (Z.of_nat (length Y) <= 2 ^ 53)%Z ->
  val (total Y) = INR (length Y) * c -> forall z, In z (normalize_f total Y) -> number z /\ val z = 0.
Proof.
  intros total Y c Ht NE H Nt L53 Vt z Hz. destruct (of_Z_ok (Z.of_nat (length Y))) as [Nn Vn]; [lia|]. rewrite <- INR_IZR_INZ in Vn. assert (Pn : 0 < INR (length Y)) by (apply lt_0_INR; destruct Y; [congruence | cbn; lia]).
  assert (Fc : F64 c) by (destruct Y as [|y Y']; [congruence|]; destruct (H y (or_introl eq_refl)) as [_ <-]; apply F64_val).
  assert (Bc : Rabs c < bpow radix2 1024) by (destruct Y as [|y Y']; [congruence|]; destruct (H y (or_introl eq_refl)) as [_ <-]; apply val_lt).
  assert (Ec : val (total Y) / val (of_Z (Z.of_nat (length Y))) = c) by (rewrite Vt, Vn; field; lra).
  destruct (fdiv_ok (total Y) (of_Z (Z.of_nat (length Y))) Nt) as [Nm Vm]; [lra | rewrite Ec, rnd_F by exact Fc; exact Bc|]. rewrite Ec, rnd_F in Vm by exact Fc. fold (mean_f total Y) in Nm, Vm.
  assert (D : forall y, In y Y -> number (fsub y (mean_f total Y)) /\ val (fsub y (mean_f total Y)) = 0).
  { intros y Hy. destruct (H y Hy) as [Ny Vy]. destruct (fsub_ok y (mean_f total Y) Ny Nm) as [N V]; rewrite Vy, Vm in *; replace (c - c) with 0 in * by ring; rewrite rnd_0 in *; [rewrite Rabs_R0; apply bpow_gt_0 | auto]. }
  rewrite (vanishing total Y Ht L53 (fun y Hy => proj1 (D y Hy)) NE) in Hz.
  - apply in_map_iff in Hz as (y & <- & Hy). now apply D.
  - intros y Hy. rewrite (proj2 (D y Hy)), Rabs_R0. apply bpow_ge_0.
Qed.
