(** Double precision: proofs. *)
From Coq Require Import List ZArith Bool Reals Lra Lia Psatz SpecFloat.
From Flocq Require Import Core Plus_error Relative IEEE754.BinarySingleNaN.
From Verif.Model Require Import Py Float.
From Verif.Spec Require Import FloatSpec.
Import ListNotations.
Local Open Scope R_scope.

#[global] Existing Instance prec53.
#[global] Existing Instance emax1024.
Notation fexp64 := (FLT_exp (-1074) 53).
Notation rnd := (round radix2 fexp64 ZnearestE).
Notation F64 := (generic_format radix2 fexp64).
#[global] Instance fexp64_valid : Valid_exp fexp64 := FLT_exp_valid (-1074) 53.
#[global] Instance fexp64_mono : Monotone_exp fexp64 := FLT_exp_monotone (-1074) 53.

Lemma F64_val : forall x, F64 (val x).
Proof. intro x. apply (generic_format_B2R 53 1024 x). Qed.
Lemma val_lt : forall x, Rabs (val x) < bpow radix2 1024.
Proof. intro x. apply (abs_B2R_lt_emax 53 1024). Qed.
Lemma rnd_mono : forall x y, x <= y -> rnd x <= rnd y.
Proof. intros. apply round_le; auto with typeclass_instances. Qed.
Lemma rnd_F : forall x, F64 x -> rnd x = x.
Proof. intros. apply round_generic; auto with typeclass_instances. Qed.
Lemma rnd_0 : rnd 0 = 0.
Proof. apply round_0; auto with typeclass_instances. Qed.
Lemma rnd_between : forall a b z, F64 a -> F64 b -> a <= z <= b -> a <= rnd z <= b.
Proof. intros a b z Fa Fb [H1 H2]. rewrite <- (rnd_F a Fa), <- (rnd_F b Fb). split; apply rnd_mono; auto. Qed.
Lemma rnd_nonneg : forall z, 0 <= z -> 0 <= rnd z.
Proof. intros z H. rewrite <- rnd_0. apply rnd_mono; auto. Qed.

Lemma fadd_ok : forall x y, number x -> number y -> Rabs (rnd (val x + val y)) < bpow radix2 1024 ->
  number (fadd x y) /\ val (fadd x y) = rnd (val x + val y).
Proof.
  intros x y Hx Hy H. pose proof (Bplus_correct 53 1024 prec53 emax1024 mode_NE x y Hx Hy) as B.
  rewrite Rlt_bool_true in B by exact H. destruct B as (B1 & B2 & _). split; [exact B2 | exact B1].
Qed.
Lemma fsub_ok : forall x y, number x -> number y -> Rabs (rnd (val x - val y)) < bpow radix2 1024 ->
  number (fsub x y) /\ val (fsub x y) = rnd (val x - val y).
Proof.
  intros x y Hx Hy H. pose proof (Bminus_correct 53 1024 prec53 emax1024 mode_NE x y Hx Hy) as B.
  rewrite Rlt_bool_true in B by exact H. destruct B as (B1 & B2 & _). split; [exact B2 | exact B1].
Qed.
Lemma fmul_ok : forall x y, number x -> number y -> Rabs (rnd (val x * val y)) < bpow radix2 1024 ->
  number (fmul x y) /\ val (fmul x y) = rnd (val x * val y).
Proof.
  intros x y Hx Hy H. pose proof (Bmult_correct 53 1024 prec53 emax1024 mode_NE x y) as B.
  rewrite Rlt_bool_true in B by exact H. destruct B as (B1 & B2 & _). split; [|exact B1].
  unfold number in *. unfold fmul. rewrite B2, Hx, Hy. reflexivity.
Qed.
Lemma fdiv_ok : forall x y, number x -> val y <> 0 -> Rabs (rnd (val x / val y)) < bpow radix2 1024 ->
  number (fdiv x y) /\ val (fdiv x y) = rnd (val x / val y).
Proof.
  intros x y Hx Hy H. pose proof (Bdiv_correct 53 1024 prec53 emax1024 mode_NE x y Hy) as B.
  rewrite Rlt_bool_true in B by exact H. destruct B as (B1 & B2 & _). split; [|exact B1].
  unfold number in *. unfold fdiv. rewrite B2. exact Hx.
Qed.
(** a difference that came out finite did not overflow *)
Lemma fsub_finite : forall x y, number x -> number y -> number (fsub x y) -> val (fsub x y) = rnd (val x - val y).
Proof.
  intros x y Hx Hy H. pose proof (Bminus_correct 53 1024 prec53 emax1024 mode_NE x y Hx Hy) as B.
  destruct (Rlt_bool _ _) eqn:E in B.
  - exact (proj1 B).
  - destruct B as [B _]. unfold number, fsub in H. rewrite <- is_finite_SF_B2SF in H. rewrite B in H.
    unfold binary_overflow in H. simpl in H. discriminate.
Qed.
Lemma between_lt : forall a b z, Rabs a < bpow radix2 1024 -> Rabs b < bpow radix2 1024 -> a <= z <= b -> Rabs z < bpow radix2 1024.
Proof. intros a b z Ha Hb H. apply Rabs_def2 in Ha. apply Rabs_def2 in Hb. apply Rabs_def1; lra. Qed.

(** ** uniform draws *)
Lemma scaled_le : forall (lo hi d u : R), F64 lo -> F64 hi -> lo <= hi -> d = rnd (hi - lo) -> F64 u -> 0 <= u < 1 ->
  0 <= rnd (d * u) <= hi - lo.
Proof.
  intros lo hi d u Fl Fh Hle Hd Fu Hu.
  assert (D0 : 0 <= d) by (subst d; apply rnd_nonneg; lra).
  assert (Fd : F64 d) by (subst d; apply generic_format_round; auto with typeclass_instances).
  split; [apply rnd_nonneg; apply Rmult_le_pos; lra|].
  destruct (Rle_dec d (hi - lo)) as [H|H].
  - apply Rle_trans with d; auto. rewrite <- (rnd_F d Fd) at 2. apply rnd_mono.
    rewrite <- (Rmult_1_r d) at 2. apply Rmult_le_compat_l; lra.
  - apply Rnot_le_lt in H. set (x := hi - lo) in *.
    assert (X0 : 0 <= x) by (unfold x; lra).
    (* not exact, hence large *)
    assert (Big : bpow radix2 (-1021) < x).
    { apply Rnot_le_lt. intro C.
      assert (Fx : F64 x).
      { unfold x, Rminus. apply FLT_format_plus_small; auto with typeclass_instances.
        - apply generic_format_opp; auto.
        - replace (hi + - lo) with x by reflexivity. rewrite Rabs_pos_eq by auto. exact C. }
      rewrite (rnd_F x Fx) in Hd. lra. }
    assert (Dp : 0 < d) by (pose proof (bpow_gt_0 radix2 (-1021)); lra).
    set (p := pred radix2 fexp64 d).
    assert (Fp : F64 p) by (apply generic_format_pred; auto with typeclass_instances).
    assert (Hpd : p < d) by (apply pred_lt_id; lra).
    assert (Px : p <= x).
    { apply Rnot_lt_le. intro C. assert (rnd x <= p) by (rewrite <- (rnd_F p Fp); apply rnd_mono; lra). lra. }
    assert (P0 : bpow radix2 (-1021) <= p).
    { apply pred_ge_gt; auto with typeclass_instances.
      - apply generic_format_bpow. unfold FLT_exp. simpl. lia.
      - lra. }
    apply Rle_trans with p; auto.
    apply round_N_le_midp; auto with typeclass_instances.
    unfold p at 2. rewrite succ_pred by auto with typeclass_instances. fold p.
    (* p = d - ulp p *)
    assert (Hup : p + ulp radix2 fexp64 p = d).
    { unfold p. apply pred_plus_ulp; auto with typeclass_instances. }
    assert (Uu : u <= 1 - bpow radix2 (-53)).
    { assert (H1 : u <= pred radix2 fexp64 1).
      { apply pred_ge_gt; auto with typeclass_instances; [|lra].
        apply (generic_format_bpow radix2 fexp64 0). unfold FLT_exp. simpl. lia. }
      replace (pred radix2 fexp64 1) with (1 - bpow radix2 (-53)) in H1; auto.
      change 1 with (bpow radix2 0) at 2. rewrite pred_bpow. simpl. lra. }
    assert (Hulp : ulp radix2 fexp64 p <= Rabs p * bpow radix2 (1 - 53)).
    { apply ulp_FLT_le; auto with typeclass_instances. rewrite Rabs_pos_eq by (pose proof (bpow_gt_0 radix2 (-1021)); lra).
      apply Rle_trans with (bpow radix2 (-1021)); auto. apply bpow_le. lia. }
    rewrite Rabs_pos_eq in Hulp by (pose proof (bpow_gt_0 radix2 (-1021)); lra).
    change (1 - 53)%Z with (-52)%Z in Hulp.
    assert (E52 : bpow radix2 (-52) = 2 * bpow radix2 (-53)) by (simpl; lra).
    assert (E53 : 0 < bpow radix2 (-53)) by apply bpow_gt_0.
    assert (d * u <= d * (1 - bpow radix2 (-53))) by (apply Rmult_le_compat_l; lra).
    assert (p * bpow radix2 (-53) < d * bpow radix2 (-53)) by (apply Rmult_lt_compat_r; auto).
    rewrite E52 in Hulp. lra.
Qed.

Lemma uniform_inside : forall lo hi u, interval (lo, hi) -> no_overflow (lo, hi) -> unit_draw u ->
  inside (lo, hi) (fadd lo (fmul (fsub hi lo) u)).
Proof.
  intros lo hi u (Hl & Hh & Hle) Hno (Hu & Hu01). simpl in *. unfold no_overflow in Hno. simpl in Hno.
  pose proof (fsub_finite hi lo Hh Hl Hno) as Ed. set (d := fsub hi lo) in *.
  destruct (scaled_le (val lo) (val hi) (val d) (val u)) as [M1 M2]; auto using F64_val.
  assert (D0 : 0 <= val d) by (rewrite Ed; apply rnd_nonneg; lra).
  destruct (fmul_ok d u) as [Fm Em]; auto.
  { apply (between_lt 0 (val d)); [rewrite Rabs_R0; apply bpow_gt_0 | apply val_lt |].
    apply rnd_between; [apply generic_format_0 | apply F64_val |].
    split; [apply Rmult_le_pos; lra|]. rewrite <- (Rmult_1_r (val d)) at 2. apply Rmult_le_compat_l; lra. }
  assert (B : val lo <= rnd (val lo + val (fmul d u)) <= val hi).
  { rewrite Em. apply rnd_between; auto using F64_val. lra. }
  destruct (fadd_ok lo (fmul d u)) as [Fa Ea]; auto.
  { apply (between_lt (val lo) (val hi)); auto using val_lt. }
  split; [exact Fa|]. simpl. rewrite Ea. exact B.
Qed.

(** ** integers, comparisons *)
Lemma of_Z_ok : forall n, (Z.abs n <= 2 ^ 53)%Z -> number (of_Z n) /\ val (of_Z n) = IZR n.
Proof.
  intros n Hn. pose proof (binary_normalize_correct 53 1024 prec53 emax1024 mode_NE n 0 false) as B.
  cbv zeta in B.
  assert (E : F2R (Float radix2 n 0) = IZR n) by (unfold F2R; simpl; ring).
  assert (Hb : Rabs (IZR n) <= bpow radix2 53).
  { rewrite <- abs_IZR. change (bpow radix2 53) with (IZR (2 ^ 53)). apply IZR_le; auto. }
  assert (Fn : F64 (IZR n)).
  { destruct (Z_le_lt_eq_dec _ _ Hn) as [H|H].
    - apply generic_format_FLT. exists (Float radix2 n 0); simpl; auto; lia.
    - assert (H' : (n = 2 ^ 53 \/ n = - 2 ^ 53)%Z) by lia.
      assert (G : F64 (bpow radix2 53)) by (apply generic_format_bpow; unfold FLT_exp; simpl; lia).
      destruct H' as [-> | ->].
      + exact G.
      + rewrite opp_IZR. apply generic_format_opp. exact G. }
  rewrite E in B. change (round radix2 (SpecFloat.fexp 53 1024) (round_mode mode_NE) (IZR n)) with (rnd (IZR n)) in B.
  rewrite (rnd_F _ Fn) in B. rewrite Rlt_bool_true in B.
  - destruct B as (B1 & B2 & _). split; [exact B2 | exact B1].
  - apply Rle_lt_trans with (bpow radix2 53); auto. apply bpow_lt. lia.
Qed.
Lemma f0_ok : number f0 /\ val f0 = 0.
Proof. apply (of_Z_ok 0). lia. Qed.
Lemma flt_ok : forall x y, number x -> number y -> flt x y = Rlt_bool (val x) (val y).
Proof. intros. apply Bltb_correct; auto. Qed.
Lemma flt_true : forall x y, number x -> number y -> flt x y = true -> val x < val y.
Proof. intros x y Hx Hy H. rewrite flt_ok in H by auto. destruct (Rlt_bool_spec (val x) (val y)); auto; discriminate. Qed.
Lemma flt_false : forall x y, number x -> number y -> flt x y = false -> val y <= val x.
Proof. intros x y Hx Hy H. rewrite flt_ok in H by auto. destruct (Rlt_bool_spec (val x) (val y)); auto; discriminate. Qed.
Lemma flt_intro : forall x y, number x -> number y -> val x < val y -> flt x y = true.
Proof. intros x y Hx Hy H. rewrite flt_ok by auto. apply Rlt_bool_true; auto. Qed.

(** relative error of a difference; no underflow *)
Lemma sub_rel : forall a b, F64 a -> F64 b -> Rabs (rnd (a - b) - (a - b)) <= bpow radix2 (-53) * Rabs (a - b).
Proof.
  intros a b Fa Fb. destruct (Rle_dec (Rabs (a - b)) (bpow radix2 (-1021))) as [H|H].
  - rewrite rnd_F.
    + replace (a - b - (a - b)) with 0 by ring. rewrite Rabs_R0. apply Rmult_le_pos; [apply bpow_ge_0 | apply Rabs_pos].
    + apply FLT_format_plus_small; auto with typeclass_instances. apply generic_format_opp; auto.
  - apply Rnot_le_lt in H.
    pose proof (relative_error_N_FLT radix2 (-1074) 53 eq_refl (fun x => negb (Z.even x)) (a - b)) as R.
    assert (G : bpow radix2 (-1074 + 53 - 1) <= Rabs (a - b)).
    { apply Rlt_le. apply Rle_lt_trans with (2 := H). apply bpow_le. lia. }
    specialize (R G). change (- (53) + 1)%Z with (-52)%Z in R. replace (/ 2 * bpow radix2 (-52)) with (bpow radix2 (-53)) in R by (simpl; lra). exact R.
Qed.
Lemma norm_rel : forall x, bpow radix2 (-1022) <= x -> Rabs (rnd x - x) <= bpow radix2 (-53) * x.
Proof.
  intros x H. pose proof (relative_error_N_FLT radix2 (-1074) 53 eq_refl (fun x => negb (Z.even x)) x) as R.
  assert (P : 0 <= x) by (pose proof (bpow_ge_0 radix2 (-1022)); lra).
  rewrite (Rabs_pos_eq x P) in R. specialize (R H).
  change (- (53) + 1)%Z with (-52)%Z in R. replace (/ 2 * bpow radix2 (-52)) with (bpow radix2 (-53)) in R by (simpl; lra). exact R.
Qed.
Lemma sub_zero : forall a b, F64 a -> F64 b -> rnd (a - b) = 0 -> a = b.
Proof.
  intros a b Fa Fb H. destruct (Req_dec (a - b) 0) as [E|E]; [lra|]. exfalso. revert H.
  apply (round_plus_neq_0 radix2 fexp64 ZnearestE a (- b)); auto with typeclass_instances. apply generic_format_opp; auto.
Qed.

Lemma div_le : forall a b c, 0 < c -> a <= b * c -> a / c <= b.
Proof. intros a b c Hc H. apply Rmult_le_reg_r with c; auto. unfold Rdiv. rewrite Rmult_assoc, Rinv_l by lra. lra. Qed.
Lemma le_div : forall a b c, 0 < c -> b * c <= a -> b <= a / c.
Proof. intros a b c Hc H. apply Rmult_le_reg_r with c; auto. unfold Rdiv. rewrite Rmult_assoc, Rinv_l by lra. lra. Qed.

(** ** linspace *)
Lemma linspace_core : forall lo hi (div i : nat), interval (lo, hi) -> no_overflow (lo, hi) -> (1 <= div)%nat -> (Z.of_nat div <= 2 ^ 50)%Z ->
  bpow radix2 (-960) <= val hi - val lo -> (i < div)%nat ->
  let step := fdiv (fsub hi lo) (of_Z (Z.of_nat div)) in
  feq step f0 = false /\
  inside (lo, hi) (fadd (fmul (of_Z (Z.of_nat i)) step) lo) /\
  val (fadd (fmul (of_Z (Z.of_nat i)) step) lo) = rnd (rnd (INR i * rnd (rnd (val hi - val lo) / INR div)) + val lo).
Proof.
  intros lo hi div i (Hl & Hh & Hle) Hno Hdiv Hmax Hw Hi step. simpl in Hl, Hh, Hle. unfold no_overflow in Hno. simpl in Hno.
  pose proof (fsub_finite hi lo Hh Hl Hno) as Ed. set (d := fsub hi lo) in *. set (w := val hi - val lo) in *.
  destruct (of_Z_ok (Z.of_nat div)) as [Fdiv Vdiv]; [lia|]. rewrite <- INR_IZR_INZ in Vdiv.
  destruct (of_Z_ok (Z.of_nat i)) as [Fi Vi]; [lia|]. rewrite <- INR_IZR_INZ in Vi.
  set (e := bpow radix2 (-53)).
  assert (He : 0 < e) by apply bpow_gt_0.
  assert (He1 : e <= 1 / 4) by (unfold e; simpl; lra).
  assert (Dv : 1 <= INR div) by (apply (le_INR 1); auto).
  assert (Dm : INR div * (8 * e) <= 1).
  { assert (INR div <= bpow radix2 50) by (rewrite INR_IZR_INZ; change (bpow radix2 50) with (IZR (2 ^ 50)); apply IZR_le; auto).
    replace 1 with (bpow radix2 50 * (8 * e)) by (unfold e; simpl; lra). apply Rmult_le_compat_r; lra. }
  assert (Ii : 0 <= INR i <= INR div - 1).
  { split; [apply pos_INR|]. assert (INR (S i) <= INR div) by (apply le_INR; lia). rewrite S_INR in H. lra. }
  assert (B960 : bpow radix2 (-960) = 2 * bpow radix2 (-961)) by (simpl; lra).
  assert (P961 : 0 < bpow radix2 (-961)) by apply bpow_gt_0.
  (* delta *)
  assert (Rd : Rabs (val d - w) <= e * w).
  { rewrite Ed. fold w. apply norm_rel. apply Rle_trans with (2 := Hw). apply bpow_le. lia. }
  assert (We : e * w <= / 4 * w) by (apply Rmult_le_compat_r; lra).
  apply Rabs_le_inv in Rd.
  assert (D1 : bpow radix2 (-961) <= val d) by lra.
  (* step *)
  set (q := val d / INR div).
  assert (Q1 : bpow radix2 (-1011) <= q).
  { unfold q. apply Rle_trans with (bpow radix2 (-961) / bpow radix2 50).
    - right. unfold Rdiv. rewrite <- bpow_opp, <- bpow_plus. reflexivity.
    - assert (INR div <= bpow radix2 50) by (rewrite INR_IZR_INZ; change (bpow radix2 50) with (IZR (2 ^ 50)); apply IZR_le; auto).
      unfold Rdiv. apply Rmult_le_compat; auto; try lra; [left; apply Rinv_0_lt_compat; apply bpow_gt_0|].
      apply Rinv_le; lra. }
  assert (Rq : Rabs (rnd q - q) <= e * q) by (apply norm_rel; apply Rle_trans with (2 := Q1); apply bpow_le; lia).
  apply Rabs_le_inv in Rq.
  assert (P1011 : 0 < bpow radix2 (-1011)) by apply bpow_gt_0.
  assert (Qe : e * q <= / 4 * q) by (apply Rmult_le_compat_r; lra).
  assert (Qd : q <= val d) by (unfold q; apply div_le; [lra|]; rewrite <- (Rmult_1_r (val d)) at 1; apply Rmult_le_compat_l; lra).
  assert (Dlt : val d < bpow radix2 1024) by (pose proof (val_lt d) as V; apply Rabs_def2 in V; lra).
  assert (Sd : rnd q <= val d) by (rewrite <- (rnd_F (val d) (F64_val d)); apply rnd_mono; auto).
  destruct (fdiv_ok d (of_Z (Z.of_nat div))) as [Fs Es]; auto.
  { rewrite Vdiv. lra. }
  { rewrite Vdiv. fold q. rewrite Rabs_pos_eq by lra. lra. }
  fold step in Fs, Es. rewrite Vdiv in Es. fold q in Es.
  assert (Sp : bpow radix2 (-1012) <= val step).
  { rewrite Es. assert (bpow radix2 (-1011) = 2 * bpow radix2 (-1012)) by (simpl; lra). lra. }
  assert (P1012 : 0 < bpow radix2 (-1012)) by apply bpow_gt_0.
  assert (S0 : 0 <= val step) by lra.
  split.
  { unfold feq. rewrite Beqb_correct; [|exact Fs|exact (proj1 f0_ok)]. change (B2R f0) with (val f0). rewrite (proj2 f0_ok).
    apply Req_bool_false. change (B2R step) with (val step). lra. }
  (* the product *)
  assert (M1 : 0 <= INR i * val step) by (apply Rmult_le_pos; lra).
  assert (M2 : rnd (INR i * val step) <= w).
  { destruct i as [|i'].
    - simpl INR. rewrite Rmult_0_l, rnd_0. lra.
    - assert (1 <= INR (S i')) by (rewrite S_INR; pose proof (pos_INR i'); lra).
      assert (val step <= INR (S i') * val step) by (rewrite <- (Rmult_1_l (val step)) at 1; apply Rmult_le_compat_r; lra).
      assert (Rm : Rabs (rnd (INR (S i') * val step) - INR (S i') * val step) <= e * (INR (S i') * val step)).
      { apply norm_rel. apply Rle_trans with (bpow radix2 (-1012)); [apply bpow_le; lia|lra]. }
      apply Rabs_le_inv in Rm.
      assert (T1 : INR (S i') * val step <= (INR div - 1) * val step) by (apply Rmult_le_compat_r; lra).
      assert (T2 : (INR div - 1) * val step <= (INR div - 1) * (q * (1 + e))) by (apply Rmult_le_compat_l; lra).
      assert (T3 : (INR div - 1) * q <= (1 - 8 * e) * val d).
      { unfold q. replace ((INR div - 1) * (val d / INR div)) with (val d - val d / INR div) by (field; lra).
        assert (8 * e * val d <= val d / INR div).
        { apply le_div; [lra|]. replace (8 * e * val d * INR div) with (val d * (INR div * (8 * e))) by ring.
          rewrite <- (Rmult_1_r (val d)) at 2. apply Rmult_le_compat_l; lra. }
        lra. }
      assert (Z0 : 0 <= (INR div - 1) * q) by (apply Rmult_le_pos; lra).
      assert (Z1 : 0 <= 1 - 8 * e) by (assert (INR div * (8 * e) >= 1 * (8 * e)) by (apply Rmult_ge_compat_r; lra); lra).
      assert (T4 : INR (S i') * val step <= (1 - 8 * e) * val d * (1 + e)) by nra.
      assert (T5 : (1 - 8 * e) * val d <= (1 - 8 * e) * (w * (1 + e))) by (apply Rmult_le_compat_l; lra).
      assert (w0 : 0 <= w) by lra.
      apply Rle_trans with ((INR (S i') * val step) * (1 + e)); [lra|].
      apply Rle_trans with ((1 - 8 * e) * (w * (1 + e)) * (1 + e) * (1 + e)).
      + apply Rmult_le_compat_r; [lra|]. apply Rle_trans with (1 := T4). apply Rmult_le_compat_r; lra.
      + replace ((1 - 8 * e) * (w * (1 + e)) * (1 + e) * (1 + e)) with (w * ((1 - 8 * e) * ((1 + e) * (1 + e) * (1 + e)))) by ring.
        rewrite <- (Rmult_1_r w) at 2. apply Rmult_le_compat_l; auto.
        assert ((1 + e) * (1 + e) * (1 + e) <= 1 + 4 * e) by nra. nra. }
  assert (M3 : 0 <= rnd (INR i * val step)) by (apply rnd_nonneg; auto).
  destruct (fmul_ok (of_Z (Z.of_nat i)) step) as [Fm Em]; auto.
  { rewrite Vi, Rabs_pos_eq by auto. apply Rle_lt_trans with (rnd w).
    - rewrite <- (rnd_F (rnd (INR i * val step))) by (apply generic_format_round; auto with typeclass_instances). apply rnd_mono; auto.
    - rewrite <- Ed. exact Dlt. }
  rewrite Vi in Em.
  set (m := fmul (of_Z (Z.of_nat i)) step) in *.
  assert (B : val lo <= rnd (val m + val lo) <= val hi).
  { rewrite Em. apply rnd_between; auto using F64_val. unfold w in M2. lra. }
  destruct (fadd_ok m lo) as [Fa Ea]; auto.
  { apply (between_lt (val lo) (val hi)); auto using val_lt. }
  split; [split; [exact Fa|]; simpl; rewrite Ea; exact B|].
  rewrite Ea, Em, Es. unfold q. rewrite Ed. reflexivity.
Qed.

Lemma linspace_at_inside : forall lo hi num i, interval (lo, hi) -> no_overflow (lo, hi) -> (Z.of_nat num <= 2 ^ 50)%Z ->
  bpow radix2 (-960) <= val hi - val lo -> (2 <= num)%nat -> (i < num)%nat -> inside (lo, hi) (linspace_at lo hi num i).
Proof.
  intros lo hi num i Hi Hno Hmax Hw H2 Hlt. destruct num as [|[|div]]; try lia. unfold linspace_at.
  destruct (Nat.eqb_spec i (S div)) as [E|E].
  - destruct Hi as (Hl & Hh & Hle). split; simpl in *; auto. lra.
  - destruct (linspace_core lo hi (S div) i) as (A & B & _); auto; try lia. rewrite A. exact B.
Qed.
Lemma linspace_at_mono : forall lo hi num i j, interval (lo, hi) -> no_overflow (lo, hi) -> (Z.of_nat num <= 2 ^ 50)%Z ->
  bpow radix2 (-960) <= val hi - val lo -> (2 <= num)%nat -> (i <= j < num)%nat -> val (linspace_at lo hi num i) <= val (linspace_at lo hi num j).
Proof.
  intros lo hi num i j Hi Hno Hmax Hw H2 Hlt.
  destruct num as [|[|div]]; try lia. unfold linspace_at.
  destruct (Nat.eqb_spec j (S div)) as [E|E].
  - destruct (Nat.eqb_spec i (S div)) as [E'|E']; [lra|].
    destruct (linspace_core lo hi (S div) i) as (A & B & _); auto; try lia. rewrite A. apply (proj2 B).
  - destruct (Nat.eqb_spec i (S div)) as [E'|E']; [lia|].
    destruct (linspace_core lo hi (S div) i) as (A & _ & Vi); auto; try lia.
    destruct (linspace_core lo hi (S div) j) as (_ & _ & Vj); auto; try lia. rewrite A, Vi, Vj.
    assert (0 < INR (S div)) by (apply lt_0_INR; lia).
    assert (0 <= rnd (rnd (val hi - val lo) / INR (S div))).
    { apply rnd_nonneg. apply Rmult_le_pos; [|left; apply Rinv_0_lt_compat; auto]. apply rnd_nonneg. destruct Hi as (_ & _ & Hle). simpl in Hle. lra. }
    apply rnd_mono. apply Rplus_le_compat_r. apply rnd_mono. apply Rmult_le_compat_r; auto. apply le_INR. lia.
Qed.
Lemma linspace_at_first : forall lo hi num, interval (lo, hi) -> no_overflow (lo, hi) -> (Z.of_nat num <= 2 ^ 50)%Z ->
  bpow radix2 (-960) <= val hi - val lo -> (2 <= num)%nat -> val (linspace_at lo hi num 0) = val lo.
Proof.
  intros lo hi num Hi Hno Hmax Hw H2. destruct num as [|[|div]]; try lia. unfold linspace_at.
  destruct (Nat.eqb_spec 0 (S div)) as [E|E]; [lia|].
  destruct (linspace_core lo hi (S div) 0) as (A & _ & V); auto; try lia. rewrite A, V.
  simpl INR. rewrite Rmult_0_l, rnd_0, Rplus_0_l. apply rnd_F. apply F64_val.
Qed.
Lemma linspace_one : forall lo hi, number lo -> number (fsub hi lo) -> linspace lo hi 1 = [fadd (fmul (of_Z 0) (fsub hi lo)) lo] /\
  number (fadd (fmul (of_Z 0) (fsub hi lo)) lo) /\ val (fadd (fmul (of_Z 0) (fsub hi lo)) lo) = val lo.
Proof.
  intros lo hi Hl Hd. split; [reflexivity|].
  destruct f0_ok as [F0 V0]. change (of_Z 0) with f0.
  destruct (fmul_ok f0 (fsub hi lo)) as [Fm Em]; auto.
  { rewrite V0, Rmult_0_l, rnd_0, Rabs_R0. apply bpow_gt_0. }
  rewrite V0, Rmult_0_l, rnd_0 in Em.
  destruct (fadd_ok (fmul f0 (fsub hi lo)) lo) as [Fa Ea]; auto.
  { rewrite Em, Rplus_0_l, rnd_F by apply F64_val. apply val_lt. }
  split; auto. rewrite Ea, Em, Rplus_0_l. apply rnd_F. apply F64_val.
Qed.

(** ** rounding a continuous coordinate *)
Lemma round_continuous_ok : forall lo hi x, interval (lo, hi) -> number x ->
  inside (lo, hi) (round_continuous lo hi x) /\
  (val lo <= val x <= val hi -> round_continuous lo hi x = x) /\
  (forall y, val lo <= y <= val hi -> Rabs (val (round_continuous lo hi x) - val x) <= Rabs (y - val x)).
Proof.
  intros lo hi x (Hl & Hh & Hle) Hx. simpl in *. unfold round_continuous.
  destruct (flt x lo) eqn:E1; [|destruct (flt hi x) eqn:E2].
  - apply flt_true in E1; auto. split; [split; simpl; auto; lra|]. split; [lra|].
    intros y Hy. rewrite !Rabs_pos_eq; lra.
  - apply flt_true in E2; auto. apply flt_false in E1; auto. split; [split; simpl; auto; lra|]. split; [lra|].
    intros y Hy. rewrite !Rabs_left1; lra.
  - apply flt_false in E1; auto. apply flt_false in E2; auto. split; [split; simpl; auto; lra|]. split; [auto|].
    intros y Hy. unfold Rminus at 1. rewrite Rplus_opp_r, Rabs_R0. apply Rabs_pos.
Qed.

(** ** magnitudes: non-negative numbers and plus infinity *)
Definition nn (x : float) : Prop := (number x /\ 0 <= val x) \/ x = B754_infinity false.
Definition ext (x : float) : R := if is_finite x then val x else bpow radix2 1024.
Lemma nn_ext_pos : forall x, nn x -> 0 <= ext x.
Proof. intros x [[H1 H2]| ->]; unfold ext; [rewrite H1; auto|cbn [is_finite]; apply bpow_ge_0]. Qed.
Lemma nn_ext_le : forall x, nn x -> ext x <= bpow radix2 1024.
Proof.
  intros x [[H1 H2]| ->]; unfold ext; [rewrite H1|right; reflexivity]. pose proof (val_lt x) as V. apply Rabs_def2 in V. lra.
Qed.
Lemma nn_nan : forall x, nn x -> nan_p x = false.
Proof. intros x [[H1 H2]| ->]; [|reflexivity]. destruct x; auto; discriminate. Qed.
Lemma nn_lt : forall x y, nn x -> nn y -> flt x y = Rlt_bool (ext x) (ext y).
Proof.
  intros x y [[H1 H2]|Ex] [[H3 H4]|Ey].
  - unfold ext. rewrite H1, H3. apply flt_ok; auto.
  - subst y. unfold ext. rewrite H1. replace (is_finite (B754_infinity false : float)) with false by reflexivity.
    symmetry. rewrite Rlt_bool_true; [|pose proof (val_lt x) as V; apply Rabs_def2 in V; lra].
    destruct x; try discriminate; [reflexivity|destruct s; reflexivity].
  - subst x. unfold ext. rewrite H3. replace (is_finite (B754_infinity false : float)) with false by reflexivity.
    rewrite Rlt_bool_false; [|pose proof (val_lt y) as V; apply Rabs_def2 in V; lra].
    destruct y; try discriminate; [reflexivity|destruct s; reflexivity].
  - subst. rewrite Rlt_bool_false by lra. reflexivity.
Qed.
Lemma nn_abs_sub : forall x y, number x -> number y -> nn (fabs (fsub x y)).
Proof.
  intros x y Hx Hy. pose proof (Bminus_correct 53 1024 prec53 emax1024 mode_NE x y Hx Hy) as B.
  destruct (Rlt_bool _ _) in B.
  - destruct B as (B1 & B2 & _). left. unfold number, fabs. rewrite is_finite_Babs. split; [exact B2|].
    unfold val, fabs. rewrite B2R_Babs. apply Rabs_pos.
  - destruct B as [B _]. right. unfold fabs, fsub. destruct (Bminus mode_NE x y) as [s|s| |s m e Hb]; try discriminate B.
    reflexivity.
Qed.
Lemma abs_sub_self : forall x y, number x -> number y -> val x = val y -> number (fabs (fsub x y)) /\ val (fabs (fsub x y)) = 0.
Proof.
  intros x y Hx Hy E. destruct (fsub_ok x y) as [F V]; auto.
  { rewrite E. unfold Rminus. rewrite Rplus_opp_r, rnd_0, Rabs_R0. apply bpow_gt_0. }
  split; [unfold number, fabs; rewrite is_finite_Babs; exact F|].
  unfold val, fabs. rewrite B2R_Babs. change (B2R (fsub x y)) with (val (fsub x y)). rewrite V, E. unfold Rminus.
  rewrite Rplus_opp_r, rnd_0. apply Rabs_R0.
Qed.
Lemma abs_sub_zero : forall x y, number x -> number y -> ext (fabs (fsub x y)) = 0 -> val x = val y.
Proof.
  intros x y Hx Hy H. unfold ext in H. destruct (is_finite (fabs (fsub x y))) eqn:E.
  - unfold fabs in E. rewrite is_finite_Babs in E. unfold val, fabs in H. rewrite B2R_Babs in H.
    change (B2R (fsub x y)) with (val (fsub x y)) in H. rewrite (fsub_finite x y Hx Hy E) in H.
    apply sub_zero; auto using F64_val. destruct (Req_dec (rnd (val x - val y)) 0); auto. apply Rabs_no_R0 in H0. contradiction.
  - pose proof (bpow_gt_0 radix2 1024). lra.
Qed.
Lemma abs_sub_val : forall x y, number x -> number y -> number (fsub x y) -> ext (fabs (fsub x y)) = Rabs (rnd (val x - val y)).
Proof.
  intros x y Hx Hy H. unfold ext, fabs. rewrite is_finite_Babs, H. unfold val. rewrite B2R_Babs.
  change (B2R (fsub x y)) with (val (fsub x y)). rewrite (fsub_finite x y Hx Hy H). reflexivity.
Qed.

(** ** rounding a discrete coordinate *)
Lemma fold_discrete_in : forall x l r dom, In r dom -> incl l dom ->
  In (fold_left (fun r v => if flt (fabs (fsub v x)) (fabs (fsub r x)) then v else r) l r) dom.
Proof.
  induction l as [|v l IH]; intros r dom Hr Hl; simpl; auto. apply IH.
  - destruct (flt _ _); auto. apply Hl; left; reflexivity.
  - intros y Hy. apply Hl; right; auto.
Qed.
Lemma fold_discrete_min : forall x l r (seen : list float), number x -> (forall v, In v l -> number v) -> number r -> (forall v, In v seen -> number v) ->
  (forall v, In v seen -> ext (fabs (fsub r x)) <= ext (fabs (fsub v x))) ->
  let r' := fold_left (fun r v => if flt (fabs (fsub v x)) (fabs (fsub r x)) then v else r) l r in
  number r' /\ ext (fabs (fsub r' x)) <= ext (fabs (fsub r x)) /\ forall v, In v (seen ++ l) -> ext (fabs (fsub r' x)) <= ext (fabs (fsub v x)).
Proof.
  induction l as [|v l IH]; intros r seen Hx Hl Hr Hs Hseen; simpl.
  - rewrite app_nil_r. split; auto. split; [lra|auto].
  - assert (Hv : number v) by (apply Hl; left; reflexivity).
    assert (Hl' : forall v, In v l -> number v) by (intros; apply Hl; right; auto).
    assert (Hs' : forall w, In w (seen ++ [v]) -> number w).
    { intros w Hw. apply in_app_or in Hw. destruct Hw as [Hw|[<-|[]]]; auto. }
    rewrite (nn_lt _ _ (nn_abs_sub v x Hv Hx) (nn_abs_sub r x Hr Hx)).
    destruct (Rlt_bool_spec (ext (fabs (fsub v x))) (ext (fabs (fsub r x)))) as [H|H].
    + destruct (IH v (seen ++ [v]) Hx Hl' Hv Hs') as (A & B & C).
      { intros w Hw. apply in_app_or in Hw. destruct Hw as [Hw|[<-|[]]]; [|lra]. specialize (Hseen w Hw). lra. }
      split; [exact A|]. split; [lra|]. intros w Hw. apply C. rewrite <- app_assoc. exact Hw.
    + destruct (IH r (seen ++ [v]) Hx Hl' Hr Hs') as (A & B & C).
      { intros w Hw. apply in_app_or in Hw. destruct Hw as [Hw|[<-|[]]]; auto. }
      split; [exact A|]. split; [lra|]. intros w Hw. apply C. rewrite <- app_assoc. exact Hw.
Qed.
Lemma round_discrete_ok : forall dom x, dom <> [] -> exists r, round_discrete dom x = Ok r /\ In r dom /\
  (number x -> (forall v, In v dom -> number v) ->
    (forall v, In v dom -> ext (fabs (fsub r x)) <= ext (fabs (fsub v x)))).
Proof.
  intros dom x Hd. destruct dom as [|r0 dom]; [congruence|]. eexists. split; [reflexivity|]. split.
  - apply fold_discrete_in; [left; reflexivity | apply incl_refl].
  - intros Hx Hv v Hin.
    destruct (fold_discrete_min x (r0 :: dom) r0 [] Hx Hv (Hv r0 (or_introl eq_refl))) as (_ & _ & C); try (intros ? []).
    apply C. exact Hin.
Qed.
Lemma discrete_fixes : forall dom x y, number x -> (forall v, In v dom -> number v) -> In y dom -> val y = val x ->
  exists r, round_discrete dom x = Ok r /\ In r dom /\ val r = val x.
Proof.
  intros dom x y Hx Hv Hy E. destruct (round_discrete_ok dom x) as (r & R1 & R2 & R3); [destruct dom; [contradiction|congruence]|].
  exists r. split; auto. split; auto. apply abs_sub_zero; auto.
  specialize (R3 Hx Hv y Hy). destruct (abs_sub_self y x) as [F V]; auto.
  unfold ext at 2 in R3. rewrite F, V in R3. pose proof (nn_ext_pos _ (nn_abs_sub r x (Hv r R2) Hx)). lra.
Qed.
Lemma discrete_nearest : forall dom x, dom <> [] -> number x -> (forall v, In v dom -> number v /\ number (fsub v x)) ->
  exists r, round_discrete dom x = Ok r /\ In r dom /\
    forall v, In v dom -> Rabs (val r - val x) <= (1 + bpow radix2 (-51)) * Rabs (val v - val x).
Proof.
  intros dom x Hd Hx Hv. destruct (round_discrete_ok dom x Hd) as (r & R1 & R2 & R3). exists r. split; auto. split; auto.
  intros v Hin. assert (Hn : forall v, In v dom -> number v) by (intros; apply Hv; auto).
  specialize (R3 Hx Hn v Hin).
  rewrite (abs_sub_val r x), (abs_sub_val v x) in R3 by (auto; apply Hv; auto).
  pose proof (sub_rel (val r) (val x) (F64_val r) (F64_val x)) as E1. pose proof (sub_rel (val v) (val x) (F64_val v) (F64_val x)) as E2.
  set (a := val r - val x) in *. set (b := val v - val x) in *. set (e := bpow radix2 (-53)) in *.
  assert (Ea : Rabs a <= Rabs (rnd a) + Rabs (rnd a - a)).
  { replace a with (rnd a - (rnd a - a)) at 1 by ring. unfold Rminus at 1. apply Rle_trans with (1 := Rabs_triang _ _). rewrite Rabs_Ropp. lra. }
  assert (Eb : Rabs (rnd b) <= Rabs b + Rabs (rnd b - b)).
  { replace (rnd b) with (b + (rnd b - b)) at 1 by ring. apply Rabs_triang. }
  assert (K : (1 - e) * Rabs a <= (1 + e) * Rabs b) by lra.
  pose proof (Rabs_pos a) as Pa. pose proof (Rabs_pos b) as Pb.
  assert (He : 0 < e <= / 8) by (split; [apply bpow_gt_0 | unfold e; simpl; lra]).
  replace (bpow radix2 (-51)) with (4 * e) by (unfold e; simpl; lra).
  apply Rmult_le_reg_l with (1 - e); [lra|]. apply Rle_trans with (1 := K).
  rewrite <- Rmult_assoc. apply Rmult_le_compat_r; auto. nra.
Qed.

(** ** argmin and argmax *)
Section Arg.
Variable better : float -> float -> bool.
Variable P : float -> Prop.
Variable k : float -> R.
Hypothesis Hbetter : forall x y, P x -> P y -> better x y = Rlt_bool (k x) (k y).
Hypothesis Hnan : forall x, P x -> nan_p x = false.
Lemma arg_from_spec : forall l pre best v i, length pre = i -> nth_error pre best = Some v -> (forall a, In a (pre ++ l) -> P a) ->
  (forall j a, nth_error pre j = Some a -> k v <= k a /\ ((j < best)%nat -> k v < k a)) ->
  exists w, nth_error (pre ++ l) (arg_from better best v i l) = Some w /\
    forall j a, nth_error (pre ++ l) j = Some a -> k w <= k a /\ ((j < arg_from better best v i l)%nat -> k w < k a).
Proof.
  induction l as [|a l IH]; intros pre best v i Hlen Hbest HP Hpre; simpl.
  - exists v. rewrite app_nil_r. auto.
  - assert (Pa : P a) by (apply HP; apply in_or_app; right; left; reflexivity).
    assert (Pv : P v) by (apply HP; apply in_or_app; left; apply nth_error_In in Hbest; auto).
    rewrite (Hnan v Pv), (Hnan a Pa), orb_false_r, (Hbetter a v Pa Pv). simpl.
    assert (Happ : pre ++ a :: l = (pre ++ [a]) ++ l) by (rewrite <- app_assoc; reflexivity).
    assert (Hlen' : length (pre ++ [a]) = S i) by (rewrite app_length; simpl; lia).
    rewrite Happ in *.
    destruct (Rlt_bool_spec (k a) (k v)) as [H|H].
    + apply IH; auto.
      * rewrite nth_error_app2 by lia. rewrite Hlen, Nat.sub_diag. reflexivity.
      * intros j b Hj. destruct (Nat.lt_ge_cases j (length pre)) as [Hc|Hc].
        -- rewrite nth_error_app1 in Hj by auto. destruct (Hpre j b Hj) as [Q _]. split; [lra|]. intros _. lra.
        -- rewrite nth_error_app2 in Hj by auto. destruct (j - length pre)%nat as [|[|m]] eqn:Em; simpl in Hj; try discriminate.
           injection Hj as <-. split; [lra|]. intro. lia.
    + apply IH; auto.
      * rewrite nth_error_app1; auto. apply nth_error_Some. rewrite Hbest. discriminate.
      * assert (Hb : (best < length pre)%nat) by (apply nth_error_Some; rewrite Hbest; discriminate).
        intros j b Hj. destruct (Nat.lt_ge_cases j (length pre)) as [Hc|Hc].
        -- rewrite nth_error_app1 in Hj by auto. auto.
        -- rewrite nth_error_app2 in Hj by auto. destruct (j - length pre)%nat as [|[|m]] eqn:Em; simpl in Hj; try discriminate.
           injection Hj as <-. split; [lra|]. intro. lia.
Qed.
Lemma arg_spec : forall a l, (forall b, In b (a :: l) -> P b) ->
  exists w, nth_error (a :: l) (arg_from better 0 a 1 l) = Some w /\
    forall j b, nth_error (a :: l) j = Some b -> k w <= k b /\ ((j < arg_from better 0 a 1 l)%nat -> k w < k b).
Proof.
  intros a l HP. apply (arg_from_spec l [a] 0 a 1); auto.
  intros [|j] b Hj; simpl in Hj.
  - injection Hj as <-. split; [lra|]. intro. lia.
  - destruct j; discriminate.
Qed.
End Arg.

Lemma arg_from_bound : forall better l best v i, (best < i)%nat -> (arg_from better best v i l < i + length l)%nat.
Proof.
  induction l as [|a l IH]; intros best v i H; simpl; [lia|].
  destruct (negb (nan_p v) && (better a v || nan_p a)).
  - specialize (IH i a (S i)). lia.
  - specialize (IH best v (S i)). lia.
Qed.
Lemma arg_bound : forall better a l, (arg_from better 0 a 1 l < length (a :: l))%nat.
Proof. intros. pose proof (arg_from_bound better l 0 a 1). simpl. lia. Qed.

(** ** rounding a categorical coordinate *)
Lemma round_categorical_ok : forall x, x <> [] -> exists i, (i < length x)%nat /\
  round_categorical x = Ok (map (fun j => of_Z (if Nat.eqb j i then 1 else 0)) (seq 0 (length x))) /\
  ((forall v, In v x -> number v) -> exists w, nth_error x i = Some w /\
     forall j v, nth_error x j = Some v -> val v <= val w /\ ((j < i)%nat -> val v < val w)).
Proof.
  intros x Hx. destruct x as [|a l]; [congruence|].
  exists (arg_from (fun x y => flt y x) 0 a 1 l). split; [apply arg_bound|]. split; [reflexivity|].
  intro Hn. destruct (arg_spec (fun x y => flt y x) number (fun v => - val v)) with (a := a) (l := l) as (w & W1 & W2); auto.
  - intros u v Hu Hv. rewrite flt_ok by auto. destruct (Rlt_bool_spec (val v) (val u)), (Rlt_bool_spec (- val u) (- val v)); auto; lra.
  - intros v Hv. destruct v; auto; discriminate.
  - exists w. split; auto. intros j v Hj. destruct (W2 j v Hj) as [Q1 Q2]. split; [lra|]. intro H. specialize (Q2 H). lra.
Qed.

(** ** distances to the arms *)
Lemma nn_square : forall d, nan_p d = false -> nn (fmul d d) /\ (number d -> 0 < rnd (val d * val d) -> 0 < ext (fmul d d)) /\
  (number d -> val d = 0 -> number (fmul d d) /\ val (fmul d d) = 0) /\ (number d \/ 0 < ext (fmul d d)).
Proof.
  intros d Hd. pose proof (bpow_gt_0 radix2 1024) as Top. destruct (is_finite d) eqn:Fd.
  - assert (Sq : 0 <= val d * val d) by apply Rle_0_sqr.
    pose proof (Bmult_correct 53 1024 prec53 emax1024 mode_NE d d) as B.
    change (round radix2 (SpecFloat.fexp 53 1024) (round_mode mode_NE) (B2R d * B2R d)) with (rnd (val d * val d)) in B.
    destruct (Rlt_bool_spec (Rabs (rnd (val d * val d))) (bpow radix2 1024)) as [Hl|Hl].
    + destruct B as (B1 & B2 & _). rewrite Fd in B2. simpl in B2.
      assert (E : val (fmul d d) = rnd (val d * val d)) by exact B1.
      assert (Fm : number (fmul d d)) by exact B2.
      split; [left; split; auto; rewrite E; apply rnd_nonneg; auto|].
      split; [intros _; unfold ext; rewrite Fm, E; auto|]. split; [|left; exact Fd].
      intros _ Z. split; auto. rewrite E, Z, Rmult_0_l. apply rnd_0.
    + assert (E : fmul d d = B754_infinity false).
      { unfold fmul. rewrite xorb_nilpotent in B. unfold binary_overflow in B. simpl in B.
        destruct (Bmult mode_NE d d) as [s|s| |s m e Hb]; try discriminate B. injection B as ->. reflexivity. }
      split; [right; exact E|]. split; [intros _ _; rewrite E; unfold ext; cbn [is_finite]; auto|].
      split; [|left; exact Fd]. intros _ Z. rewrite Z, Rmult_0_l, rnd_0, Rabs_R0 in Hl. lra.
  - destruct d as [s|s| |s m e Hb]; try discriminate.
    assert (E : fmul (B754_infinity s) (B754_infinity s) = B754_infinity false) by (destruct s; reflexivity).
    rewrite E. split; [right; reflexivity|]. split; [intro H; discriminate H|]. split; [intro H; discriminate H|]. right.
    unfold ext. cbn [is_finite]. exact Top.
Qed.
Lemma inf_add : forall y : float, nan_p y = false -> y <> B754_infinity true -> fadd (B754_infinity false) y = B754_infinity false /\ fadd y (B754_infinity false) = B754_infinity false.
Proof. intros [s|[|]| |s m e Hb] H1 H2; try discriminate; try congruence; split; reflexivity. Qed.
Lemma sign_pos : forall x, number x -> 0 < val x -> Bsign x = false.
Proof.
  intros [s|s| |s m e Hb] Hf Hv; try discriminate; unfold val in Hv; simpl in Hv; [lra|].
  destruct s; auto. exfalso. revert Hv. apply Rle_not_lt. apply F2R_le_0. simpl. lia.
Qed.
Lemma nn_add : forall x y, nn x -> nn y -> nn (fadd x y) /\ ext x <= ext (fadd x y) /\ ext y <= ext (fadd x y) /\ (ext x = 0 -> ext y = 0 -> ext (fadd x y) = 0).
Proof.
  intros x y Hx Hy. pose proof (bpow_gt_0 radix2 1024) as Top.
  assert (I : ext (B754_infinity false) = bpow radix2 1024) by reflexivity.
  pose proof (nn_ext_le x Hx) as Lx. pose proof (nn_ext_le y Hy) as Ly.
  destruct Hx as [[Fx Px]| ->].
  - destruct Hy as [[Fy Py]| ->].
    + assert (Hex : ext x = val x) by (unfold ext; rewrite Fx; auto). assert (Hey : ext y = val y) by (unfold ext; rewrite Fy; auto).
      pose proof (Bplus_correct 53 1024 prec53 emax1024 mode_NE x y Fx Fy) as B.
      change (round radix2 (SpecFloat.fexp 53 1024) (round_mode mode_NE) (B2R x + B2R y)) with (rnd (val x + val y)) in B.
      destruct (Rlt_bool_spec (Rabs (rnd (val x + val y))) (bpow radix2 1024)) as [Hl|Hl].
      * destruct B as (B1 & B2 & _).
        assert (E : val (fadd x y) = rnd (val x + val y)) by exact B1. assert (Fm : number (fadd x y)) by exact B2.
        assert (Ee : ext (fadd x y) = rnd (val x + val y)) by (unfold ext; rewrite Fm; auto).
        split; [left; split; auto; rewrite E; apply rnd_nonneg; lra|]. rewrite Ee, Hex, Hey.
        split; [rewrite <- (rnd_F (val x)) at 1 by apply F64_val; apply rnd_mono; lra|].
        split; [rewrite <- (rnd_F (val y)) at 1 by apply F64_val; apply rnd_mono; lra|].
        intros -> ->. rewrite Rplus_0_l. apply rnd_0.
      * destruct B as (B1 & B2).
        assert (S : Bsign x = false).
        { destruct (Rle_lt_or_eq_dec _ _ Px) as [P|P]; [apply sign_pos; auto|].
          destruct (Rle_lt_or_eq_dec _ _ Py) as [P'|P']; [rewrite B2; apply sign_pos; auto|].
          rewrite <- P, <- P', Rplus_0_l, rnd_0, Rabs_R0 in Hl. lra. }
        assert (E : fadd x y = B754_infinity false).
        { unfold fadd. rewrite S in B1. unfold binary_overflow in B1. simpl in B1.
          destruct (Bplus mode_NE x y) as [s|s| |s m e Hb]; try discriminate B1. injection B1 as ->. reflexivity. }
        rewrite E. split; [right; reflexivity|]. split; [rewrite I; lra|]. split; [rewrite I; lra|].
        intros Z1 Z2. rewrite Hex in Z1. rewrite Hey in Z2. rewrite Z1, Z2, Rplus_0_l, rnd_0, Rabs_R0 in Hl. lra.
    + destruct (inf_add x) as [_ E]; [apply nn_nan; left; auto|intros ->; discriminate|]. rewrite E, I in *.
      split; [right; reflexivity|]. repeat split; lra.
  - destruct (inf_add y) as [E _]; [apply nn_nan; auto|intros ->; destruct Hy as [[Hc _]|Hc]; discriminate|]. rewrite E, I in *.
    split; [right; reflexivity|]. repeat split; lra.
Qed.
Lemma nn_sum : forall l a, nn a -> (forall b, In b l -> nn b) -> nn (fold_left fadd l a) /\ ext a <= ext (fold_left fadd l a) /\
  (forall b, In b l -> ext b <= ext (fold_left fadd l a)) /\ (ext a = 0 -> (forall b, In b l -> ext b = 0) -> ext (fold_left fadd l a) = 0).
Proof.
  induction l as [|b l IH]; intros a Ha Hl; simpl.
  - split; auto. split; [lra|]. split; [intros ? []|auto].
  - assert (Hb : nn b) by (apply Hl; left; reflexivity). destruct (nn_add a b Ha Hb) as (N & A1 & A2 & A3).
    destruct (IH (fadd a b) N) as (B1 & B2 & B3 & B4); [intros; apply Hl; right; auto|].
    split; auto. split; [lra|]. split.
    + intros c [<-|Hc]; [lra|]. apply B3; auto.
    + intros Z1 Z2. apply B4; auto.
Qed.
Lemma nn_sqrt : forall x, nn x -> nn (fsqrt x) /\ (0 < ext x -> 0 < ext (fsqrt x)) /\ (ext x = 0 -> ext (fsqrt x) = 0).
Proof.
  intros x Hx. pose proof (bpow_gt_0 radix2 1024) as Top. destruct Hx as [[Fx Px]| ->].
  - assert (Hex : ext x = val x) by (unfold ext; rewrite Fx; auto).
    destruct (Bsqrt_correct 53 1024 prec53 emax1024 mode_NE x) as (B1 & B2 & _).
    assert (E : val (fsqrt x) = rnd (sqrt (val x))) by exact B1.
    assert (Fs : number (fsqrt x)).
    { unfold number, fsqrt. rewrite B2. destruct x as [s|s| |s m e Hb]; try discriminate; auto. destruct s; auto.
      exfalso. revert Px. apply Rlt_not_le. unfold val. simpl. apply F2R_lt_0. simpl. lia. }
    assert (Ee : ext (fsqrt x) = rnd (sqrt (val x))) by (unfold ext; rewrite Fs; auto).
    split; [left; split; auto; rewrite E; apply rnd_nonneg; apply sqrt_pos|]. rewrite Ee, Hex. split.
    + intro P. destruct (Rle_dec (val x) 1) as [L|L].
      * apply Rlt_le_trans with (val x); auto. rewrite <- (rnd_F (val x)) at 1 by apply F64_val. apply rnd_mono.
        rewrite <- (sqrt_Rsqr (val x)) at 1 by lra. apply sqrt_le_1_alt. unfold Rsqr. nra.
      * assert (F1 : F64 1) by (apply (generic_format_bpow radix2 fexp64 0); unfold FLT_exp; simpl; lia).
        apply Rlt_le_trans with 1; [lra|]. rewrite <- (rnd_F 1 F1) at 1. apply rnd_mono. rewrite <- sqrt_1. apply sqrt_le_1_alt. lra.
    + intros ->. rewrite sqrt_0. apply rnd_0.
  - split; [right; reflexivity|]. split; [intros _; change (ext (fsqrt (B754_infinity false))) with (bpow radix2 1024); auto|].
    change (ext (B754_infinity false)) with (bpow radix2 1024). lra.
Qed.
Definition far (a x : float) : Prop := bpow radix2 (-500) <= Rabs (val a - val x).
Lemma sub_nan : forall x y, number x -> number y -> nan_p (fsub x y) = false.
Proof.
  intros x y Hx Hy. pose proof (nn_nan _ (nn_abs_sub x y Hx Hy)) as N. unfold fabs, nan_p in *. destruct (fsub x y); auto.
Qed.
Lemma square_far : forall a x, number a -> number x -> far a x -> 0 < ext (fmul (fsub a x) (fsub a x)).
Proof.
  intros a x Ha Hx Hf. destruct (nn_square (fsub a x) (sub_nan a x Ha Hx)) as (N & P & _ & Q).
  destruct Q as [Q|Q]; auto. apply P; auto. rewrite (fsub_finite a x Ha Hx Q). unfold far in Hf. set (t := val a - val x) in *.
  assert (B : bpow radix2 (-500) <= Rabs (rnd t)).
  { apply abs_round_ge_generic; auto with typeclass_instances. apply generic_format_bpow. unfold FLT_exp. lia. }
  assert (G : F64 (bpow radix2 (-1000))) by (apply generic_format_bpow; unfold FLT_exp; lia).
  apply Rlt_le_trans with (bpow radix2 (-1000)); [apply bpow_gt_0|]. rewrite <- (rnd_F _ G). apply rnd_mono.
  change (-1000)%Z with (-500 + -500)%Z. rewrite bpow_plus. pose proof (bpow_gt_0 radix2 (-500)).
  replace (rnd t * rnd t) with (Rabs (rnd t) * Rabs (rnd t)) by (rewrite <- Rabs_mult; apply Rabs_pos_eq; apply Rle_0_sqr).
  apply Rmult_le_compat; lra.
Qed.
Lemma square_same : forall a x, number a -> number x -> val a = val x -> ext (fmul (fsub a x) (fsub a x)) = 0.
Proof.
  intros a x Ha Hx E. destruct (fsub_ok a x) as [F V]; auto.
  { rewrite E. unfold Rminus. rewrite Rplus_opp_r, rnd_0, Rabs_R0. apply bpow_gt_0. }
  destruct (nn_square (fsub a x) (sub_nan a x Ha Hx)) as (_ & _ & Z & _). destruct Z as [Z1 Z2]; auto.
  { rewrite V, E. unfold Rminus. rewrite Rplus_opp_r. apply rnd_0. }
  unfold ext. rewrite Z1. exact Z2.
Qed.
(** ** normalisation *)
Lemma fold_min_ok : forall l a, number a -> (forall y, In y l -> number y) ->
  let m := fold_left (fun b y => if flt y b then y else b) l a in
  In m (a :: l) /\ number m /\ val m <= val a /\ forall y, In y l -> val m <= val y.
Proof.
  induction l as [|b l IH]; intros a Ha Hl; simpl.
  - split; [left; reflexivity|]. split; auto. split; [lra|]. intros ? [].
  - assert (Hb : number b) by (apply Hl; left; reflexivity).
    destruct (flt b a) eqn:E.
    + apply flt_true in E; auto. destruct (IH b Hb) as (A & B & C & D); [intros; apply Hl; right; auto|].
      split; [simpl in A; tauto|]. split; auto. split; [lra|]. intros y [<-|Hy]; auto.
    + apply flt_false in E; auto. destruct (IH a Ha) as (A & B & C & D); [intros; apply Hl; right; auto|].
      split; [simpl in A; tauto|]. split; auto. split; [lra|]. intros y [<-|Hy]; [lra|auto].
Qed.
Lemma fold_max_ok : forall l a, number a -> (forall y, In y l -> number y) ->
  let m := fold_left (fun b y => if flt b y then y else b) l a in
  In m (a :: l) /\ number m /\ val a <= val m /\ forall y, In y l -> val y <= val m.
Proof.
  induction l as [|b l IH]; intros a Ha Hl; simpl.
  - split; [left; reflexivity|]. split; auto. split; [lra|]. intros ? [].
  - assert (Hb : number b) by (apply Hl; left; reflexivity).
    destruct (flt a b) eqn:E.
    + apply flt_true in E; auto. destruct (IH b Hb) as (A & B & C & D); [intros; apply Hl; right; auto|].
      split; [simpl in A; tauto|]. split; auto. split; [lra|]. intros y [<-|Hy]; auto.
    + apply flt_false in E; auto. destruct (IH a Ha) as (A & B & C & D); [intros; apply Hl; right; auto|].
      split; [simpl in A; tauto|]. split; auto. split; [lra|]. intros y [<-|Hy]; [lra|auto].
Qed.
Lemma min_f_ok : forall Y, Y <> [] -> (forall y, In y Y -> number y) -> In (min_f Y) Y /\ number (min_f Y) /\ forall y, In y Y -> val (min_f Y) <= val y.
Proof.
  intros [|a l] H Hn; [congruence|]. destruct (fold_min_ok l a) as (A & B & C & D); [apply Hn; left; reflexivity | intros; apply Hn; right; auto|].
  split; auto. split; auto. intros y [<-|Hy]; auto.
Qed.
Lemma max_f_ok : forall Y, Y <> [] -> (forall y, In y Y -> number y) -> In (max_f Y) Y /\ number (max_f Y) /\ forall y, In y Y -> val y <= val (max_f Y).
Proof.
  intros [|a l] H Hn; [congruence|]. destruct (fold_max_ok l a) as (A & B & C & D); [apply Hn; left; reflexivity | intros; apply Hn; right; auto|].
  split; auto. split; auto. intros y [<-|Hy]; auto.
Qed.
Lemma lit_ok : forall m e, (Z.abs m < 2 ^ 53)%Z -> (-1074 <= e <= 900)%Z -> number (lit m e) /\ val (lit m e) = IZR m * bpow radix2 e.
Proof.
  intros m e Hm He. pose proof (binary_normalize_correct 53 1024 prec53 emax1024 mode_NE m e false) as B. cbv zeta in B.
  assert (Fm : F64 (F2R (Float radix2 m e))).
  { apply generic_format_FLT. exists (Float radix2 m e); simpl; auto; lia. }
  change (round radix2 (SpecFloat.fexp 53 1024) (round_mode mode_NE) (F2R (Float radix2 m e))) with (rnd (F2R (Float radix2 m e))) in B.
  rewrite (rnd_F _ Fm) in B. rewrite Rlt_bool_true in B.
  - destruct B as (B1 & B2 & _). split; [exact B2 | exact B1].
  - unfold F2R. simpl Fnum. simpl Fexp. rewrite Rabs_mult, (Rabs_pos_eq (bpow radix2 e)) by apply bpow_ge_0.
    apply Rlt_le_trans with (bpow radix2 53 * bpow radix2 e).
    + apply Rmult_lt_compat_r; [apply bpow_gt_0|]. rewrite <- abs_IZR. change (bpow radix2 53) with (IZR (2 ^ 53)). apply IZR_lt. auto.
    + rewrite <- bpow_plus. apply bpow_le. lia.
Qed.
Lemma lit_half : number (lit 1 (-1)) /\ val (lit 1 (-1)) = / 2.
Proof. destruct (lit_ok 1 (-1)) as [A B]; [lia|lia|]. split; auto. rewrite B. simpl. lra. Qed.
Lemma F64_IZR : forall n, (Z.abs n <= 2 ^ 53)%Z -> F64 (IZR n).
Proof. intros n H. destruct (of_Z_ok n H) as [_ V]. rewrite <- V. apply F64_val. Qed.
Lemma fsub_pos : forall x y, number x -> number y -> number (fsub x y) -> val y < val x -> 0 < val (fsub x y).
Proof.
  intros x y Hx Hy H Hlt. rewrite (fsub_finite x y Hx Hy H). destruct (Rle_lt_or_eq_dec 0 (rnd (val x - val y))); auto.
  - apply rnd_nonneg. lra.
  - exfalso. symmetry in e. apply sub_zero in e; auto using F64_val. lra.
Qed.
(** one entry under maxmin *)
Definition maxmin_at (lo r y : float) : float := let d := fsub y lo in if flt f0 r then fmul (of_Z 2) (fsub (fdiv d r) (lit 1 (-1))) else d.
Lemma small_lt : forall x, Rabs x <= 2 -> Rabs x < bpow radix2 1024.
Proof. intros x H. apply Rle_lt_trans with (1 := H). change 2 with (bpow radix2 1). apply bpow_lt. lia. Qed.
Lemma maxmin_at_ok : forall lo hi y, number lo -> number hi -> number y -> val lo <= val y <= val hi -> number (fsub hi lo) ->
  let out := maxmin_at lo (fsub hi lo) y in
  number out /\
  (val lo < val hi -> val out = rnd (2 * rnd (rnd (rnd (val y - val lo) / rnd (val hi - val lo)) - / 2)) /\ -1 <= val out <= 1) /\
  (val lo = val hi -> val out = 0).
Proof.
  intros lo hi y Hl Hh Hy Hb Hr out.
  pose proof (fsub_finite hi lo Hh Hl Hr) as Er. set (r := fsub hi lo) in *.
  assert (D1 : 0 <= rnd (val y - val lo)) by (apply rnd_nonneg; lra).
  assert (D2 : rnd (val y - val lo) <= val r) by (rewrite Er; apply rnd_mono; lra).
  assert (Rlt : val r < bpow radix2 1024) by (pose proof (val_lt r) as V; apply Rabs_def2 in V; lra).
  destruct (fsub_ok y lo) as [Fd Ed]; auto.
  { rewrite Rabs_pos_eq by auto. lra. }
  destruct f0_ok as [F0 V0]. unfold out, maxmin_at. destruct (flt f0 r) eqn:E.
  - apply flt_true in E; auto. rewrite V0 in E.
    assert (Q : 0 <= rnd (val y - val lo) / val r <= 1).
    { split; [apply Rmult_le_pos; auto; left; apply Rinv_0_lt_compat; auto|]. apply div_le; lra. }
    assert (Q' : 0 <= rnd (rnd (val y - val lo) / val r) <= 1) by (apply rnd_between; auto using (F64_IZR 1); [apply generic_format_0|apply (F64_IZR 1); lia]).
    destruct (fdiv_ok (fsub y lo) r) as [Fq Eq]; auto; [lra| |].
    { rewrite Ed. apply small_lt. rewrite Rabs_pos_eq; lra. }
    rewrite Ed in Eq. destruct lit_half as [Fh' Vh].
    assert (Fhalf : F64 (/ 2)) by (rewrite <- Vh; apply F64_val).
    assert (S : - / 2 <= rnd (rnd (rnd (val y - val lo) / val r) - / 2) <= / 2).
    { apply rnd_between; auto; [apply generic_format_opp; auto|lra]. }
    destruct (fsub_ok (fdiv (fsub y lo) r) (lit 1 (-1))) as [Fs Es]; auto.
    { rewrite Eq, Vh. apply small_lt. apply Rabs_le. lra. }
    rewrite Eq, Vh in Es. destruct (of_Z_ok 2) as [F2 V2]; [lia|].
    assert (T : -1 <= rnd (2 * rnd (rnd (rnd (val y - val lo) / val r) - / 2)) <= 1).
    { apply rnd_between; [apply (F64_IZR (-1)); lia | apply (F64_IZR 1); lia | lra]. }
    destruct (fmul_ok (of_Z 2) (fsub (fdiv (fsub y lo) r) (lit 1 (-1)))) as [Fm Em]; auto.
    { rewrite V2, Es. apply small_lt. apply Rabs_le. lra. }
    rewrite V2, Es in Em. split; auto. split.
    + intros _. rewrite Em, <- Er. auto.
    + intro Eq'. exfalso. rewrite Er, Eq' in E. unfold Rminus in E. rewrite Rplus_opp_r, rnd_0 in E. lra.
  - apply flt_false in E; auto. rewrite V0 in E. split; auto. split.
    + intro Hlt. exfalso. pose proof (fsub_pos hi lo Hh Hl Hr Hlt). fold r in H. lra.
    + intro Eq'. rewrite Ed. replace (val y - val lo) with 0 by lra. apply rnd_0.
Qed.
Lemma maxmin_mono : forall lo hi y z, number lo -> number hi -> number y -> number z -> val lo <= val y -> val y <= val z -> val z <= val hi ->
  number (fsub hi lo) -> val (maxmin_at lo (fsub hi lo) y) <= val (maxmin_at lo (fsub hi lo) z).
Proof.
  intros lo hi y z Hl Hh Hy Hz H1 H2 H3 Hr.
  destruct (maxmin_at_ok lo hi y) as (_ & A & B); auto; [lra|]. destruct (maxmin_at_ok lo hi z) as (_ & A' & B'); auto; [lra|].
  destruct (Rle_lt_or_eq_dec (val lo) (val hi)) as [H|H]; [lra| |].
  - destruct (A H) as [-> _]. destruct (A' H) as [-> _]. apply rnd_mono. apply Rmult_le_compat_l; [lra|]. apply rnd_mono.
    apply Rplus_le_compat_r. apply rnd_mono. assert (0 < rnd (val hi - val lo)).
    { pose proof (fsub_pos hi lo Hh Hl Hr H) as P. rewrite (fsub_finite hi lo Hh Hl Hr) in P. auto. }
    apply Rmult_le_compat_r; [left; apply Rinv_0_lt_compat; auto|]. apply rnd_mono. lra.
  - rewrite (B H), (B' H). lra.
Qed.
Lemma maxmin_ends : forall lo hi, number lo -> number hi -> val lo < val hi -> number (fsub hi lo) ->
  (forall y, number y -> val y = val lo -> val (maxmin_at lo (fsub hi lo) y) = -1) /\
  (forall y, number y -> val y = val hi -> val (maxmin_at lo (fsub hi lo) y) = 1).
Proof.
  intros lo hi Hl Hh Hlt Hr.
  assert (P : 0 < rnd (val hi - val lo)).
  { pose proof (fsub_pos hi lo Hh Hl Hr Hlt) as P. rewrite (fsub_finite hi lo Hh Hl Hr) in P. auto. }
  assert (Fhalf : F64 (/ 2)) by (rewrite <- (proj2 lit_half); apply F64_val).
  split; intros y Hy E; destruct (maxmin_at_ok lo hi y) as (_ & A & _); auto; try lra; destruct (A Hlt) as [-> _]; rewrite E.
  - unfold Rminus at 2. rewrite Rplus_opp_r, rnd_0. unfold Rdiv. rewrite Rmult_0_l, rnd_0. unfold Rminus. rewrite Rplus_0_l.
    rewrite (rnd_F (- / 2)) by (apply generic_format_opp; auto). replace (2 * - / 2) with (-1) by lra. apply rnd_F. apply (F64_IZR (-1)). lia.
  - unfold Rdiv. rewrite Rinv_r by lra. rewrite (rnd_F 1) by (apply (F64_IZR 1); lia). replace (1 - / 2) with (/ 2) by lra.
    rewrite (rnd_F (/ 2)) by auto. replace (2 * / 2) with 1 by lra. apply rnd_F. apply (F64_IZR 1). lia.
Qed.

Definition stats_at (m s y : float) : float := let d := fsub y m in if flt f0 s then fdiv d s else d.
Lemma fdiv_finite : forall x y, val y <> 0 -> number (fdiv x y) -> number x /\ val (fdiv x y) = rnd (val x / val y).
Proof.
  intros x y Hy H. pose proof (Bdiv_correct 53 1024 prec53 emax1024 mode_NE x y Hy) as B.
  destruct (Rlt_bool _ _) in B.
  - destruct B as (B1 & B2 & _). split; [|exact B1]. unfold number, fdiv in *. rewrite B2 in H. exact H.
  - unfold number, fdiv in H. rewrite <- is_finite_SF_B2SF in H. rewrite B in H. unfold binary_overflow in H. simpl in H. discriminate.
Qed.
Lemma stats_mono : forall m s y z, number m -> number s -> number y -> number z -> number (stats_at m s y) -> number (stats_at m s z) ->
  val y <= val z -> val (stats_at m s y) <= val (stats_at m s z).
Proof.
  intros m s y z Hm Hs Hy Hz Fy Fz H. unfold stats_at in *. destruct f0_ok as [F0 V0]. destruct (flt f0 s) eqn:E.
  - apply flt_true in E; auto. rewrite V0 in E.
    destruct (fdiv_finite (fsub y m) s) as [Dy ->]; auto; [lra|]. destruct (fdiv_finite (fsub z m) s) as [Dz ->]; auto; [lra|].
    rewrite (fsub_finite y m Hy Hm Dy), (fsub_finite z m Hz Hm Dz). apply rnd_mono. apply Rmult_le_compat_r; [left; apply Rinv_0_lt_compat; auto|].
    apply rnd_mono. lra.
  - rewrite (fsub_finite y m Hy Hm Fy), (fsub_finite z m Hz Hm Fz). apply rnd_mono. lra.
Qed.

(** ** the deviation *)
Lemma deviation_ok : forall v, number v -> number (deviation v) /\
  val (deviation v) = rnd (sqrt (Rmax (val v) (val tenth10))).
Proof.
  intros v Hv. unfold deviation. assert (Ht : number tenth10) by reflexivity.
  assert (Tp : 0 < val tenth10).
  { unfold tenth10. rewrite (proj2 (lit_ok 7737125245533627 (-86) ltac:(lia) ltac:(lia))).
    apply Rmult_lt_0_compat; [lra | apply bpow_gt_0]. }
  assert (H : exists w, (if flt v tenth10 then tenth10 else v) = w /\ number w /\ val w = Rmax (val v) (val tenth10)).
  { destruct (flt v tenth10) eqn:E; eexists; split; try reflexivity.
    - apply flt_true in E; auto. rewrite Rmax_right by lra. auto.
    - apply flt_false in E; auto. rewrite Rmax_left by lra. auto. }
  destruct H as (w & -> & Fw & Vw). destruct (Bsqrt_correct 53 1024 prec53 emax1024 mode_NE w) as (B1 & B2 & _).
  split.
  - unfold number, fsqrt. rewrite B2. destruct w as [s|s| |s m e Hb]; try discriminate; auto. destruct s; auto.
    exfalso. assert (0 < val (B754_finite true m e Hb)) by (rewrite Vw; apply Rlt_le_trans with (1 := Tp); apply Rmax_r).
    revert H. apply Rle_not_lt. unfold val. simpl. apply F2R_le_0. simpl. lia.
  - rewrite <- Vw. exact B1.
Qed.
Lemma flt_le : forall x y, number x -> number y -> flt x y = true -> val x <= val y.
Proof. intros. left. apply flt_true; auto. Qed.
Lemma deviation_floor : forall v : float, number v -> number (deviation v) /\ val (lit 5902958103587057 (-69)) <= val (deviation v) /\
  (forall w, number w -> val v <= val w -> val (deviation v) <= val (deviation w)).
Proof.
  intros v Hv. destruct (deviation_ok v Hv) as [F E]. split; auto. split.
  - assert (L : lit 5902958103587057 (-69) = deviation f0) by (apply B2SF_inj; vm_compute; reflexivity).
    rewrite L. destruct (deviation_ok f0 (proj1 f0_ok)) as [_ E0]. rewrite E, E0, (proj2 f0_ok). apply rnd_mono. apply sqrt_le_1_alt.
    assert (0 <= val tenth10).
    { unfold tenth10. rewrite (proj2 (lit_ok 7737125245533627 (-86) ltac:(lia) ltac:(lia))). apply Rmult_le_pos; [lra | apply bpow_ge_0]. }
    rewrite (Rmax_right 0) by auto. apply Rmax_r.
  - intros w Hw H. destruct (deviation_ok w Hw) as [_ Ew]. rewrite E, Ew. apply rnd_mono. apply sqrt_le_1_alt.
    apply Rmax_lub; [apply Rle_trans with (1 := H); apply Rmax_l | apply Rmax_r].
Qed.

(** ** designs *)
Lemma ranges_ok : forall bounds, List.Forall interval bounds -> List.Forall no_overflow bounds ->
  mapM uniform_range bounds = Ok (map (fun b => (fst b, fsub (snd b) (fst b))) bounds).
Proof.
  induction bounds as [|b bounds IH]; intros H1 H2; [reflexivity|].
  pose proof (Forall_inv H2) as H6. pose proof (Forall_inv_tail H1) as H1'. pose proof (Forall_inv_tail H2) as H2'.
  simpl. unfold uniform_range at 1. unfold finite. unfold no_overflow, number in H6. rewrite H6. simpl. rewrite IH by auto. reflexivity.
Qed.
Lemma row_inside : forall bounds k (u : nat -> float), List.Forall interval bounds -> List.Forall no_overflow bounds -> (forall k, unit_draw (u k)) ->
  List.Forall2 inside bounds (map (fun kr => fadd (fst (snd kr)) (fmul (snd (snd kr)) (u (fst kr))))
    (combine (seq k (length bounds)) (map (fun b => (fst b, fsub (snd b) (fst b))) bounds))).
Proof.
  induction bounds as [|[lo hi] bounds IH]; intros k u H1 H2 Hu; simpl; constructor.
  - apply uniform_inside; [exact (Forall_inv H1) | exact (Forall_inv H2) | auto].
  - apply IH; [exact (Forall_inv_tail H1) | exact (Forall_inv_tail H2) | auto].
Qed.
Lemma samples_uniform_ok : forall (u : nat -> nat -> float) (bounds : list (float * float)) (n : nat),
  List.Forall interval bounds -> List.Forall no_overflow bounds -> (forall i k, unit_draw (u i k)) ->
  exists rows, samples_uniform u bounds n = Ok rows /\ length rows = n /\ List.Forall (fun row => List.Forall2 inside bounds row) rows.
Proof.
  intros u bounds n H1 H2 Hu. unfold samples_uniform. rewrite ranges_ok by auto. eexists. split; [reflexivity|].
  split; [rewrite map_length, seq_length; reflexivity|]. apply List.Forall_forall. intros row Hrow. apply in_map_iff in Hrow.
  destruct Hrow as (i & <- & _). rewrite map_length. apply row_inside; auto.
Qed.
Lemma samples_uniform_overflow : forall (u : nat -> nat -> float) bounds n, List.Forall interval bounds -> ~ List.Forall no_overflow bounds ->
  samples_uniform u bounds n = Raise OverflowError.
Proof.
  intros u bounds n H1 H2. unfold samples_uniform. replace (mapM uniform_range bounds) with (Raise OverflowError : res (list (float * float))); [reflexivity|].
  symmetry. induction bounds as [|b bounds IH]; [exfalso; apply H2; constructor|]. simpl. unfold uniform_range at 1. unfold finite.
  destruct (is_finite (fsub (snd b) (fst b))) eqn:E; [|reflexivity]. simpl. rewrite IH; [reflexivity | exact (Forall_inv_tail H1)|]. intro H. apply H2. constructor; auto.
Qed.
Lemma fmul_comm : forall x y : float, number x -> number y -> fmul x y = fmul y x.
Proof.
  intros x y Hx Hy. unfold fmul. apply B2SF_inj. destruct x as [s|s| |s m e H], y as [s'|s'| |s' m' e' H']; try discriminate; simpl; auto;
  try (rewrite xorb_comm; reflexivity).
  rewrite !B2SF_SF2B. rewrite xorb_comm, Pos.mul_comm, Z.add_comm. reflexivity.
Qed.
Lemma samples_scaled_ok : forall (unit : list (list float)) (bounds : list (float * float)),
  List.Forall interval bounds -> List.Forall no_overflow bounds -> List.Forall (fun row => length row = length bounds /\ List.Forall unit_draw row) unit ->
  length (samples_scaled unit bounds) = length unit /\ List.Forall (fun row => List.Forall2 inside bounds row) (samples_scaled unit bounds).
Proof.
  intros unit bounds H1 H2 H3. unfold samples_scaled. split; [apply map_length|]. apply List.Forall_forall. intros row Hrow.
  apply in_map_iff in Hrow. destruct Hrow as (r & <- & Hr). rewrite List.Forall_forall in H3. destruct (H3 r Hr) as [Hlen Hd]. clear - H1 H2 Hlen Hd.
  revert r Hlen Hd. induction bounds as [|[lo hi] bounds IH]; intros [|x r] Hlen Hd; simpl in *; try discriminate; constructor.
  - pose proof (Forall_inv Hd) as D. unfold scale. simpl. rewrite fmul_comm; [|destruct D; auto|exact (Forall_inv H2)].
    apply uniform_inside; [exact (Forall_inv H1) | exact (Forall_inv H2) | auto].
  - apply IH; [exact (Forall_inv_tail H1) | exact (Forall_inv_tail H2) | lia | exact (Forall_inv_tail Hd)].
Qed.
Lemma linspace_ok : forall (lo hi : float) (n : nat),
  interval (lo, hi) -> no_overflow (lo, hi) -> bpow radix2 (-960) <= val hi - val lo -> (2 <= n)%nat -> (Z.of_nat n <= 2 ^ 50)%Z ->
  exists first middle, linspace lo hi n = first :: middle ++ [hi] /\ length middle = (n - 2)%nat /\ val first = val lo /\
    List.Forall (inside (lo, hi)) (linspace lo hi n) /\
    (forall i j x y, nth_error (linspace lo hi n) i = Some x -> nth_error (linspace lo hi n) j = Some y -> (i <= j)%nat -> val x <= val y).
Proof.
  intros lo hi n Hi Hno Hw H2 Hmax. exists (linspace_at lo hi n 0), (map (linspace_at lo hi n) (seq 1 (n - 2))).
  split.
  { unfold linspace. destruct n as [|[|m]]; try lia. replace (S (S m) - 2)%nat with m by lia.
    change (seq 0 (S (S m))) with (0%nat :: seq 1 (S m)). rewrite seq_S. cbn [map]. f_equal. rewrite map_app. f_equal. simpl map. f_equal.
    unfold linspace_at. rewrite Nat.eqb_refl. reflexivity. }
  split; [rewrite map_length, seq_length; reflexivity|]. split; [apply linspace_at_first; auto|]. split.
  - apply List.Forall_forall. intros x Hx. apply in_map_iff in Hx. destruct Hx as (i & <- & Hin). apply in_seq in Hin. apply linspace_at_inside; auto. lia.
  - intros i j x y Hx Hy Hij. unfold linspace in Hx, Hy. rewrite nth_error_map in Hx, Hy.
    destruct (nth_error (seq 0 n) i) as [a|] eqn:Ea; [|discriminate]. destruct (nth_error (seq 0 n) j) as [b|] eqn:Eb; [|discriminate].
    injection Hx as <-. injection Hy as <-.
    assert (Hi' : (i < n)%nat) by (rewrite <- (seq_length n 0); apply nth_error_Some; congruence).
    assert (Hj' : (j < n)%nat) by (rewrite <- (seq_length n 0); apply nth_error_Some; congruence).
    apply nth_error_nth with (d := 0%nat) in Ea. apply nth_error_nth with (d := 0%nat) in Eb. rewrite seq_nth in Ea, Eb by auto. simpl in Ea, Eb. subst a b.
    apply linspace_at_mono; auto.
Qed.

(** ** normalisation of a whole vector *)
Lemma normalize_maxmin_at : forall Y, normalize_maxmin Y = map (maxmin_at (min_f Y) (fsub (max_f Y) (min_f Y))) Y.
Proof. reflexivity. Qed.
Lemma normalize_maxmin_ok : forall Y : list float, Y <> [] -> (forall y, In y Y -> number y) ->
  (forall a b, In a Y -> In b Y -> no_overflow (a, b)) ->
  length (normalize_maxmin Y) = length Y /\
  forall i y z, nth_error Y i = Some y -> nth_error (normalize_maxmin Y) i = Some z ->
    number z /\ -1 <= val z <= 1 /\
    ((exists a b, In a Y /\ In b Y /\ val a <> val b) ->
      ((forall a, In a Y -> val y <= val a) -> val z = -1) /\ ((forall a, In a Y -> val a <= val y) -> val z = 1)) /\
    ((forall a b, In a Y -> In b Y -> val a = val b) -> val z = 0).
Proof.
  intros Y Hne Hn Hno. rewrite normalize_maxmin_at. split; [apply map_length|].
  destruct (min_f_ok Y Hne Hn) as (I1 & N1 & L1). destruct (max_f_ok Y Hne Hn) as (I2 & N2 & L2).
  assert (Hr : number (fsub (max_f Y) (min_f Y))) by (apply (Hno (min_f Y) (max_f Y)); auto).
  intros i y z Hy Hz. rewrite nth_error_map, Hy in Hz. injection Hz as <-.
  assert (Iy : In y Y) by (apply nth_error_In in Hy; auto).
  destruct (maxmin_at_ok (min_f Y) (max_f Y) y) as (A & B & C); auto.
  split; auto. destruct (Rle_lt_or_eq_dec (val (min_f Y)) (val (max_f Y)) (L1 _ I2)) as [H|H].
  - destruct (B H) as [_ R]. split; auto. destruct (maxmin_ends (min_f Y) (max_f Y)) as [E1 E2]; auto. split.
    + intros _. split; intro Q.
      * apply E1; auto. apply Rle_antisym; auto.
      * apply E2; auto. apply Rle_antisym; auto.
    + intro Q. specialize (Q _ _ I1 I2). lra.
  - rewrite (C H). split; [lra|]. split; [|auto]. intros (a & b & Ia & Ib & Hab). exfalso. apply Hab.
    pose proof (L1 a Ia). pose proof (L2 a Ia). pose proof (L1 b Ib). pose proof (L2 b Ib). lra.
Qed.
Lemma normalize_maxmin_order : forall Y : list float, (forall y, In y Y -> number y) -> (forall a b, In a Y -> In b Y -> no_overflow (a, b)) ->
  forall i j y y' z z', nth_error Y i = Some y -> nth_error Y j = Some y' ->
    nth_error (normalize_maxmin Y) i = Some z -> nth_error (normalize_maxmin Y) j = Some z' -> val y <= val y' -> val z <= val z'.
Proof.
  intros Y Hn Hno i j y y' z z' Hy Hy' Hz Hz' H. rewrite normalize_maxmin_at in Hz, Hz'. rewrite nth_error_map in Hz, Hz'. rewrite Hy in Hz. rewrite Hy' in Hz'.
  injection Hz as <-. injection Hz' as <-. apply nth_error_In in Hy. apply nth_error_In in Hy'.
  assert (Hne : Y <> []) by (intros ->; contradiction).
  destruct (min_f_ok Y Hne Hn) as (I1 & N1 & L1). destruct (max_f_ok Y Hne Hn) as (I2 & N2 & L2).
  apply maxmin_mono; auto. apply (Hno (min_f Y) (max_f Y)); auto.
Qed.
Lemma normalize_stats_order : forall (m s : float) (Y : list float), number m -> number s -> (forall y, In y Y -> number y) ->
  (forall z, In z (normalize_stats m s Y) -> number z) ->
  forall i j y y' z z', nth_error Y i = Some y -> nth_error Y j = Some y' ->
    nth_error (normalize_stats m s Y) i = Some z -> nth_error (normalize_stats m s Y) j = Some z' -> val y <= val y' -> val z <= val z'.
Proof.
  intros m s Y Hm Hs Hn Hz0 i j y y' z z' Hy Hy' Hz Hz' H.
  assert (Nz : number z) by (apply Hz0; apply nth_error_In in Hz; auto). assert (Nz' : number z') by (apply Hz0; apply nth_error_In in Hz'; auto).
  unfold normalize_stats in Hz, Hz'. rewrite nth_error_map in Hz, Hz'. rewrite Hy in Hz. rewrite Hy' in Hz'. injection Hz as <-. injection Hz' as <-.
  apply nth_error_In in Hy. apply nth_error_In in Hy'. apply (stats_mono m s y y'); auto.
Qed.
