(** Distances and bandit arms in double precision: proofs. *)
From Coq Require Import List ZArith Bool Reals Lra Lia.
From Flocq Require Import Core Relative IEEE754.BinarySingleNaN.
From Verif.Model Require Import Py Float FloatStop FloatBandit.
From Verif.Spec Require Import FloatSpec FloatStopSpec FloatBanditSpec.
From Verif.Proof Require Import FloatP FloatStopP FloatConsP FloatAccA FloatNormP.
Import ListNotations.
Local Open Scope R_scope.

Lemma round_bandit_arm : forall total arms x, arms <> [] -> exists arm, round_bandit total arms x = Ok arm /\ In arm arms.
Proof.
  intros total arms x H. unfold round_bandit. set (dist := fun arm => distance total arm x).
  destruct arms as [|a arms]; [congruence|]. cbn [map]. unfold argmin_f. cbn [bind].
  pose proof (arg_bound flt (dist a) (map dist arms)) as B. set (i := arg_from flt 0 (dist a) 1 (map dist arms)) in *.
  assert (B' : (i < length (a :: arms))%nat) by (cbn [length] in *; rewrite map_length in B; exact B).
  apply nth_error_Some in B'. destruct (nth_error (a :: arms) i) as [arm|] eqn:E; [|congruence].
  exists arm. split; [reflexivity|]. now apply nth_error_In in E.
Qed.
(** no arm has a smaller distance, as computed *)
Lemma round_bandit_least : forall total arms x, (forall l, added l (total l)) -> arms <> [] -> numbers x -> (forall arm, In arm arms -> numbers arm) ->
  exists i arm, round_bandit total arms x = Ok arm /\ nth_error arms i = Some arm /\
  forall j other, nth_error arms j = Some other -> ext (distance total arm x) <= ext (distance total other x) /\ ((j < i)%nat -> ext (distance total arm x) < ext (distance total other x)).
Proof.
  intros total arms x Ht NE Hx Ha. unfold round_bandit. set (dist := fun arm => distance total arm x).
  assert (Hd : forall arm, In arm arms -> nn (dist arm)) by (intros arm Hin; apply distance_nn; auto).
  destruct arms as [|a arms]; [contradiction|]. cbn [map]. unfold argmin_f. cbn [bind].
  destruct (arg_spec flt nn ext) with (a := dist a) (l := map dist arms) as (w & W1 & W2).
  - intros; apply nn_lt; auto.
  - apply nn_nan.
  - intros b Hb. change (dist a :: map dist arms) with (map dist (a :: arms)) in Hb. apply in_map_iff in Hb. destruct Hb as (arm & <- & Hb). auto.
  - set (i := arg_from flt 0 (dist a) 1 (map dist arms)) in *. change (dist a :: map dist arms) with (map dist (a :: arms)) in *.
    rewrite nth_error_map in W1. destruct (nth_error (a :: arms) i) as [arm|] eqn:E; [|discriminate]. injection W1 as <-.
    exists i, arm. split; [reflexivity|]. split; [exact E|]. intros j other Hj. change (distance total arm x) with (dist arm). change (distance total other x) with (dist other). destruct (W2 j (dist other)) as [Q1 Q2]; [rewrite nth_error_map, Hj; reflexivity|]. split; assumption.
Qed.

(** ---- how far a computed distance can be from the exact one *)
Lemma square_near : forall z d, Rabs (z - d) <= ee * Rabs d -> Rabs (z * z - d * d) <= 3 * ee * (d * d).
Proof.
  intros z d H. pose proof ee_small as Es. set (b := Rabs d) in *. assert (B0 : 0 <= b) by apply Rabs_pos. assert (D2 : d * d = b * b) by (unfold b; rewrite <- Rabs_mult, Rabs_pos_eq; [reflexivity | apply Rle_0_sqr]).
  assert (Hs : Rabs (z + d) <= 3 * b).
  { replace (z + d) with ((z - d) + 2 * d) by ring. eapply Rle_trans; [apply Rabs_triang|]. rewrite Rabs_mult, (Rabs_pos_eq 2) by lra. fold b. assert (ee * b <= 1 * b) by (apply Rmult_le_compat_r; lra). lra. }
  replace (z * z - d * d) with ((z - d) * (z + d)) by ring. rewrite Rabs_mult, D2. replace (3 * ee * (b * b)) with (ee * b * (3 * b)) by ring. apply Rmult_le_compat; try apply Rabs_pos; assumption.
Qed.
Lemma sqrt_rel : forall t, number t -> 0 <= val t -> number (fsqrt t) /\ Rabs (val (fsqrt t) - sqrt (val t)) <= ee * sqrt (val t) /\ 0 <= val (fsqrt t).
Proof.
  intros t N P. pose proof (sqrt_number t N P) as Ns. destruct (Bsqrt_correct 53 1024 prec53 emax1024 mode_NE t) as (V & _). change (val (fsqrt t) = rnd (sqrt (val t))) in V.
  split; [exact Ns|]. rewrite V. split; [|rewrite <- rnd_0; apply rnd_mono; apply sqrt_pos].
  destruct (Rle_lt_or_eq_dec 0 (val t) P) as [G|G]; [|rewrite <- G, sqrt_0, rnd_0, Rminus_0_r, Rabs_R0; lra].
  assert (L : bpow radix2 (-1022) <= Rabs (sqrt (val t))).
  { rewrite Rabs_pos_eq by apply sqrt_pos. assert (M : bpow radix2 (-1074) <= val t) by (apply (FloatLPP.F64_pos_min (val t)); [apply F64_val | exact G]).
    apply Rle_trans with (bpow radix2 (-537)); [apply bpow_le; lia|]. rewrite <- (sqrt_Rsqr (bpow radix2 (-537))) by apply bpow_ge_0. apply sqrt_le_1_alt. unfold Rsqr. rewrite <- bpow_plus. exact M. }
  pose proof (relative_error_N_FLT radix2 (-1074) 53 ltac:(lia) (fun n => negb (Z.even n)) (sqrt (val t)) L) as R. rewrite (Rabs_pos_eq (sqrt (val t))) in R by apply sqrt_pos.
  apply Rle_trans with (1 := R). right. f_equal. unfold ee. cbn. lra.
Qed.
Section Near.
  Variables (total : list float -> float) (a x : list float).
  Hypothesis Ht : forall l, added l (total l).
  Hypothesis Ha : moderate a.
  Hypothesis Hx : moderate x.
  Hypothesis L : length a = length x.
  Let n : R := INR (length a).
  Let dd (p : float * float) : R := (val (fst p) - val (snd p)) * (val (fst p) - val (snd p)).
  Let D : R := rsum (map dd (combine a x)).
  Let t : float := total (squares a x).
  Lemma count : 1 <= n /\ n <= bpow radix2 40 /\ 0 <= n * ee <= / 8192.
  Proof.
    destruct Ha as (N & K & _). unfold n. assert (K1 : 1 <= INR (length a)) by (change 1 with (INR 1); now apply le_INR).
    assert (K2 : INR (length a) <= bpow radix2 40) by (rewrite INR_IZR_INZ; change (bpow radix2 40) with (IZR (2 ^ 40)); now apply IZR_le). split; [exact K1|]. split; [exact K2|].
    pose proof ee_small. split; [apply Rmult_le_pos; lra|]. change (bpow radix2 40) with 1099511627776 in K2. apply Rle_trans with (1099511627776 * ee); [apply Rmult_le_compat_r; lra|]. unfold ee. lra.
  Qed.
  Lemma pair_ok : forall p, In p (combine a x) -> let e := fsub (fst p) (snd p) in
    number (fmul e e) /\ 0 <= val (fmul e e) <= bpow radix2 804 /\ Rabs (val (fmul e e) - dd p) <= 5 * ee * dd p + et.
  Proof.
    intros [u v] Hp e. cbn [fst snd] in *. destruct Ha as (_ & _ & Ha'). destruct Hx as (_ & _ & Hx'). destruct (Ha' u (in_combine_l _ _ _ _ Hp)) as [Nu Bu]. destruct (Hx' v (in_combine_r _ _ _ _ Hp)) as [Nv Bv].
    pose proof ee_small as Es. set (d := val u - val v). assert (Ed : dd (u, v) = d * d) by reflexivity. rewrite Ed.
    assert (B : Rabs d <= bpow radix2 402).
    { replace (bpow radix2 402) with (4 * bpow radix2 400) by (change 402%Z with (2 + 400)%Z; rewrite bpow_plus; reflexivity). pose proof (bpow_gt_0 radix2 400). unfold d. apply Rabs_le_inv in Bu, Bv. apply Rabs_le. lra. }
    assert (B' : Rabs (rnd d) <= bpow radix2 402) by (apply rnd_bound; [lia | exact B]).
    destruct (fsub_ok u v Nu Nv) as [Ne Ve]; [fold d; apply Rle_lt_trans with (1 := B'); apply bpow_lt; lia|]. fold d e in Ve. fold e in Ne.
    assert (E1 : Rabs (val e - d) <= ee * Rabs d) by (rewrite Ve; unfold d, Rminus at 1 2; apply rnd_plus; [apply F64_val | apply generic_format_opp, F64_val]).
    pose proof (square_near _ _ E1) as E2. assert (S0 : 0 <= val e * val e) by apply Rle_0_sqr. assert (D0 : 0 <= d * d) by apply Rle_0_sqr.
    assert (S : Rabs (val e * val e) <= bpow radix2 804).
    { rewrite Rabs_mult. change 804%Z with (402 + 402)%Z. rewrite bpow_plus. rewrite Ve. apply Rmult_le_compat; try apply Rabs_pos; exact B'. }
    assert (S' : Rabs (rnd (val e * val e)) <= bpow radix2 804) by (apply rnd_bound; [lia | exact S]).
    destruct (fmul_ok e e Ne Ne) as [Np Vp]; [apply Rle_lt_trans with (1 := S'); apply bpow_lt; lia|]. split; [exact Np|]. rewrite Vp. split.
    - split; [rewrite <- rnd_0; now apply rnd_mono | apply Rabs_le_inv in S'; lra].
    - assert (E3 : Rabs (rnd (val e * val e) - val e * val e) <= ee * (val e * val e) + et) by (apply rerr; rewrite Rabs_pos_eq by exact S0; lra).
      assert (E4 : ee * (val e * val e) <= 2 * ee * (d * d)).
      { assert (Q : val e * val e <= 2 * (d * d)). { apply Rabs_le_inv in E2. assert (3 * ee * (d * d) <= 1 * (d * d)) by (apply Rmult_le_compat_r; lra). lra. }
        replace (2 * ee * (d * d)) with (ee * (2 * (d * d))) by ring. apply Rmult_le_compat_l; lra. }
      apply Rabs_le_inv in E2, E3. apply Rabs_le. lra.
  Qed.
  Lemma D_pos : 0 <= D.
  Proof. unfold D. replace 0 with (rsum (map (fun _ : float * float => 0) (combine a x))) by (rewrite rsum_const; ring). apply rsum_le. intros. apply Rle_0_sqr. Qed.
  Lemma total_near : number t /\ 0 <= val t /\ Rabs (val t - D) <= 8 * (n * ee) * D + 2 * (n * et).
  Proof.
    destruct count as (N1 & N2 & N3 & N4). pose proof ee_small as Es. pose proof et_small as Et. pose proof D_pos as D0. set (f := fun p : float * float => let d := fsub (fst p) (snd p) in fmul d d).
    assert (LC : length (combine a x) = length a) by (rewrite combine_length, <- L; apply Nat.min_id).
    assert (Hs : forall y, In y (squares a x) -> number y /\ 0 <= val y <= bpow radix2 804) by (intros y Hy; unfold squares in Hy; apply in_map_iff in Hy as (p & <- & Hp); destruct (pair_ok p Hp) as (q1 & q2 & _); split; assumption).
    assert (Ls : INR (length (squares a x)) = n) by (unfold squares, n; now rewrite map_length, LC).
    assert (Eb : big_l (squares a x) = rsum (map val (squares a x))) by (unfold big_l; f_equal; apply map_ext_in; intros y Hy; apply Rabs_pos_eq; apply (Hs y Hy)).
    destruct (sum_error (squares a x) t (Ht _)) as [Nt E].
    - intros y Hy. now apply Hs.
    - rewrite Ls. exact N4.
    - apply Rle_trans with (n * bpow radix2 804); [rewrite <- Ls; apply big_bound; intros y Hy; rewrite Rabs_pos_eq; apply (Hs y Hy)|].
      apply Rle_trans with (bpow radix2 40 * bpow radix2 804); [apply Rmult_le_compat_r; [apply bpow_ge_0 | lra]|]. rewrite <- bpow_plus. apply bpow_le. lia.
    - rewrite Ls, Eb in E. split; [exact Nt|].
      assert (S : Rabs (rsum (map val (squares a x)) - D) <= 5 * ee * D + n * et).
      { unfold squares. rewrite map_map. unfold D. replace (5 * ee * rsum (map dd (combine a x)) + n * et) with (rsum (map (fun p => 5 * ee * dd p + et) (combine a x))).
        - apply rsum_abs. intros p Hp. exact (proj2 (proj2 (pair_ok p Hp))).
        - rewrite (rsum_plus (fun p => 5 * ee * dd p) (fun _ => et)), rsum_scale, rsum_const, LC. reflexivity. }
      set (P := rsum (map val (squares a x))) in *. assert (P0 : 0 <= P) by (rewrite <- Eb; apply big_pos). set (dl := n * ee) in *.
      assert (T0 : 0 <= val t). { apply Rabs_le_inv in E. assert (2 * dl * P <= 1 * P) by (apply Rmult_le_compat_r; lra). lra. } split; [exact T0|].
      assert (K1 : ee * D <= dl * D) by (apply Rmult_le_compat_r; [exact D0|]; unfold dl; rewrite <- (Rmult_1_l ee) at 1; apply Rmult_le_compat_r; lra).
      assert (K0 : 0 <= n * et) by (apply Rmult_le_pos; lra).
      assert (K2 : P <= 1.01 * D + n * et). { apply Rabs_le_inv in S. assert (5 * ee * D <= 0.01 * D) by (apply Rmult_le_compat_r; lra). lra. }
      assert (K3 : 2 * dl * P <= 2 * dl * (1.01 * D + n * et)) by (apply Rmult_le_compat_l; lra).
      assert (K4 : dl * (n * et) <= / 8192 * (n * et)) by (apply Rmult_le_compat_r; lra). assert (K5 : 0 <= dl * D) by (apply Rmult_le_pos; lra).
      apply Rabs_le_inv in E, S. apply Rabs_le. lra.
  Qed.
  Lemma tiny : sqrt (2 * (n * et)) <= bpow radix2 (-517).
  Proof.
    destruct count as (N1 & N2 & _). rewrite <- (sqrt_Rsqr (bpow radix2 (-517))) by apply bpow_ge_0. apply sqrt_le_1_alt. unfold Rsqr. rewrite <- bpow_plus.
    apply Rle_trans with (2 * (bpow radix2 40 * et)); [apply Rmult_le_compat_l; [lra|]; apply Rmult_le_compat_r; [apply bpow_ge_0 | exact N2]|]. unfold et. rewrite <- bpow_plus. change 2 with (bpow radix2 1). rewrite <- bpow_plus. apply bpow_le. lia.
  Qed.
  Lemma distance_near : number (distance total a x) /\ Rabs (val (distance total a x) - real_distance a x) <= 10 * (n * ee) * real_distance a x + bpow radix2 (-516).
  Proof.
    destruct count as (N1 & N2 & N3 & N4). pose proof ee_small as Es. pose proof et_small as Et. pose proof D_pos as D0. destruct total_near as (Nt & T0 & E). unfold distance. fold t.
    destruct (sqrt_rel t Nt T0) as (Ns & Es' & S0). split; [exact Ns|]. change (real_distance a x) with (sqrt D). set (s := val (fsqrt t)) in *. set (r := sqrt (val t)) in *. set (w := sqrt D) in *. set (h := sqrt (2 * (n * et))).
    pose proof tiny as Hh. fold h in Hh. set (dl := n * ee) in *. assert (H0 : 0 <= h) by apply sqrt_pos. assert (R0 : 0 <= r) by apply sqrt_pos. assert (W0 : 0 <= w) by apply sqrt_pos.
    assert (NE0 : 0 <= 2 * (n * et)) by (apply Rmult_le_pos; [lra|]; apply Rmult_le_pos; lra).
    assert (Rr : r * r = val t) by (apply sqrt_sqrt; exact T0). assert (Ww : w * w = D) by (apply sqrt_sqrt; exact D0). assert (Hq : h * h = 2 * (n * et)) by (apply sqrt_sqrt; exact NE0).
    assert (DW0 : 0 <= dl * w) by (apply Rmult_le_pos; lra). apply Rabs_le_inv in E. rewrite <- Rr, <- Ww, <- Hq in E.
    assert (U : r <= w + 8 * (dl * w) + h).
    { apply Rsqr_incr_0_var; [|lra]. unfold Rsqr. assert (0 <= w * h) by (apply Rmult_le_pos; lra). assert (0 <= dl * w * h) by (apply Rmult_le_pos; lra). assert (0 <= dl * w * (dl * w)) by (apply Rmult_le_pos; lra). assert (Q : 0 <= dl * w * w) by (apply Rmult_le_pos; lra).
      replace ((w + 8 * (dl * w) + h) * (w + 8 * (dl * w) + h)) with (w * w + 16 * (dl * w * w) + h * h + 64 * (dl * w * (dl * w)) + 2 * (w * h) + 16 * (dl * w * h)) by ring. replace (8 * dl * (w * w)) with (8 * (dl * w * w)) in E by ring. lra. }
    assert (Lo : w - 8 * (dl * w) - h <= r).
    { destruct (Rle_dec (w - 8 * (dl * w) - h) 0) as [G|G]; [lra|]. assert (X : w - 8 * (dl * w) <= r + h).
      { apply Rsqr_incr_0_var; [|lra]. unfold Rsqr. assert (0 <= r * h) by (apply Rmult_le_pos; lra). assert (Q : 0 <= dl * w * w) by (apply Rmult_le_pos; lra). assert (Q2 : dl * w * (dl * w) <= / 8192 * (dl * w * w)).
        { replace (dl * w * (dl * w)) with (dl * (dl * w * w)) by ring. apply Rmult_le_compat_r; lra. }
        replace ((w - 8 * (dl * w)) * (w - 8 * (dl * w))) with (w * w - 16 * (dl * w * w) + 64 * (dl * w * (dl * w))) by ring. replace ((r + h) * (r + h)) with (r * r + h * h + 2 * (r * h)) by ring. replace (8 * dl * (w * w)) with (8 * (dl * w * w)) in E by ring. lra. }
      lra. }
    assert (K1 : ee * r <= dl * w * 1.1 + ee * h).
    { assert (X : ee * r <= ee * (w + 8 * (dl * w) + h)) by (apply Rmult_le_compat_l; lra). assert (Y : ee * w <= dl * w) by (apply Rmult_le_compat_r; [lra|]; unfold dl; rewrite <- (Rmult_1_l ee) at 1; apply Rmult_le_compat_r; lra).
      assert (Z : ee * (dl * w) <= 0.01 * (dl * w)) by (apply Rmult_le_compat_r; lra). lra. }
    assert (K2 : ee * h <= 0.5 * h) by (apply Rmult_le_compat_r; lra). assert (K3 : bpow radix2 (-516) = 2 * bpow radix2 (-517)) by (change (-516)%Z with (1 + -517)%Z; rewrite bpow_plus; reflexivity). rewrite K3.
    apply Rabs_le_inv in Es'. apply Rabs_le. replace (10 * dl * w) with (10 * (dl * w)) by ring. lra.
  Qed.
End Near.
(** a computed distance that is not greater belongs to a point that is not much farther *)
Lemma not_farther : forall total a b x, (forall l, added l (total l)) -> moderate a -> moderate b -> moderate x -> length a = length x -> length b = length x -> val (distance total a x) <= val (distance total b x) ->
  let D y := real_distance y x * real_distance y x in D a <= (1 + INR (length x) * bpow radix2 (-48)) * D b + INR (length x) * bpow radix2 (-1072).
Proof.
  intros total a b x Ht Ha Hb Hx La Lb H D. destruct (total_near total a x Ht Ha Hx La) as (Na & Pa & Ea). destruct (total_near total b x Ht Hb Hx Lb) as (Nb & Pb & Eb). destruct (count a Ha) as (N1 & N2 & N3 & N4).
  pose proof ee_small as Es. pose proof et_small as Et. rewrite Lb in Eb. rewrite La in Ea, N1, N2, N3, N4. pose proof (D_pos a x) as Da. pose proof (D_pos b x) as Db.
  set (Ra := rsum _) in Ea, Da. set (Rb := rsum _) in Eb, Db. assert (Xa : D a = Ra) by (apply sqrt_sqrt; exact Da). assert (Xb : D b = Rb) by (apply sqrt_sqrt; exact Db). rewrite Xa, Xb. clear Xa Xb D.
  destruct (sqrt_rel _ Na Pa) as (_ & Sa & _). destruct (sqrt_rel _ Nb Pb) as (_ & Sb & _). unfold distance in H. set (ta := val (total (squares a x))) in *. set (tb := val (total (squares b x))) in *.
  set (ra := sqrt ta) in *. set (rb := sqrt tb) in *. assert (A0 : 0 <= ra) by apply sqrt_pos. assert (B0 : 0 <= rb) by apply sqrt_pos. assert (A2 : ra * ra = ta) by (apply sqrt_sqrt; exact Pa). assert (B2 : rb * rb = tb) by (apply sqrt_sqrt; exact Pb).
  assert (G : ra <= (1 + (21 / 10) * ee) * rb).
  { apply Rabs_le_inv in Sa, Sb. assert (X : (1 - ee) * ra <= (1 + ee) * rb) by lra. apply Rmult_le_reg_l with (1 - ee); [lra|]. apply Rle_trans with (1 := X). rewrite <- Rmult_assoc. apply Rmult_le_compat_r; [exact B0|].
    assert (0 <= ee * ee) by (apply Rmult_le_pos; lra). assert (ee * ee <= 0.01 * ee) by (apply Rmult_le_compat_r; lra). replace ((1 - ee) * (1 + (21 / 10) * ee)) with (1 + (11 / 10) * ee - (21 / 10) * (ee * ee)) by field. lra. }
  assert (T : ta <= (1 + 5 * ee) * tb).
  { rewrite <- A2, <- B2. apply Rle_trans with ((1 + (21 / 10) * ee) * rb * ((1 + (21 / 10) * ee) * rb)); [apply Rmult_le_compat; lra|]. replace ((1 + (21 / 10) * ee) * rb * ((1 + (21 / 10) * ee) * rb)) with ((1 + (21 / 10) * ee) * (1 + (21 / 10) * ee) * (rb * rb)) by ring. apply Rmult_le_compat_r; [apply Rle_0_sqr|].
    assert (0 <= ee * ee) by (apply Rmult_le_pos; lra). assert (ee * ee <= 0.01 * ee) by (apply Rmult_le_compat_r; lra). replace ((1 + (21 / 10) * ee) * (1 + (21 / 10) * ee)) with (1 + (42 / 10) * ee + (441 / 100) * (ee * ee)) by field. lra. }
  set (n := INR (length x)) in *. set (dl := n * ee) in *. set (k := n * et) in *. assert (K0 : 0 <= k) by (apply Rmult_le_pos; lra). assert (Dl : ee <= dl) by (unfold dl; rewrite <- (Rmult_1_l ee) at 1; apply Rmult_le_compat_r; lra).
  replace (n * bpow radix2 (-48)) with (32 * dl) by (unfold dl; change (-48)%Z with (5 + -53)%Z; rewrite bpow_plus, ee_pow; change (bpow radix2 5) with 32; ring).
  replace (n * bpow radix2 (-1072)) with (8 * k) by (unfold k, et; change (-1072)%Z with (3 + -1075)%Z; rewrite bpow_plus; change (bpow radix2 3) with 8; ring).
  apply Rabs_le_inv in Ea, Eb. assert (Q0 : 0 <= dl * Rb) by (apply Rmult_le_pos; lra). assert (Q1 : ee * tb <= dl * tb) by (apply Rmult_le_compat_r; assumption).
  assert (Q2 : dl * tb <= dl * (1.01 * Rb + 2 * k)) by (apply Rmult_le_compat_l; [lra|]; assert (8 * dl * Rb <= 0.01 * Rb) by (apply Rmult_le_compat_r; lra); lra).
  assert (Q3 : dl * k <= / 8192 * k) by (apply Rmult_le_compat_r; lra).
  assert (M : (1 - 8 * dl) * Ra <= (1 + 13.1 * dl) * Rb + 4.1 * k) by lra.
  apply Rmult_le_reg_l with (1 - 8 * dl); [lra|]. apply Rle_trans with (1 := M). assert (Q4 : dl * (dl * Rb) <= / 8192 * (dl * Rb)) by (apply Rmult_le_compat_r; lra).
  replace ((1 - 8 * dl) * ((1 + 32 * dl) * Rb + 8 * k)) with (Rb + 24 * (dl * Rb) - 256 * (dl * (dl * Rb)) + 8 * k - 64 * (dl * k)) by ring. lra.
Qed.
(** at the distance 0, as computed, no coordinate differs by 2^-500 or more *)
Lemma distance_zero : forall total a x, (forall l, added l (total l)) -> numbers a -> numbers x -> length a = length x -> ext (distance total a x) <= 0 -> List.Forall2 (fun u v => ~ far u v) a x.
Proof.
  intros total a x Ht Ha Hx L Z. unfold distance in Z. assert (Hn : forall b, In b (squares a x) -> nn b).
  { intros b Hb. unfold squares in Hb. apply in_map_iff in Hb as ([u v] & <- & Hp). apply nn_square. apply sub_nan; [apply Ha; eapply in_combine_l; eauto | apply Hx; eapply in_combine_r; eauto]. }
  destruct (added_nn _ _ (Ht (squares a x)) Hn) as (T1 & T2 & _). destruct (nn_sqrt _ T1) as (_ & Q & _).
  assert (P : forall b, In b (squares a x) -> ext b <= 0) by (intros b Hb; apply Rle_trans with (1 := T2 b Hb); apply Rnot_lt_le; intro G; specialize (Q G); lra).
  clear - P L Ha Hx. revert x Hx L P. induction a as [|u a IH]; intros [|v x] Hx L P; try discriminate; constructor.
  - intros F. assert (Nu : number u) by (apply Ha; now left). assert (Nv : number v) by (apply Hx; now left). pose proof (square_far u v Nu Nv F) as G. specialize (P _ (or_introl eq_refl)). cbn [fst snd] in P. lra.
  - apply IH; [intros y Hy; apply Ha; now right | intros y Hy; apply Hx; now right | now injection L | intros b Hb; apply P; now right].
Qed.
