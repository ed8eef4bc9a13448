(** Acquisition values in double precision: proofs. *)
From Coq Require Import List ZArith Bool Reals Lra Lia Psatz SpecFloat.
From Flocq Require Import Core Relative IEEE754.BinarySingleNaN.
From Verif.Model Require Import Py Float FloatStop FloatCons FloatAcq AcqR.
From Verif.Spec Require Import FloatSpec FloatAcqSpec.
From Verif.Proof Require Import FloatP FloatStopP FloatConsP GaussP AcqP.
Import ListNotations.
Local Open Scope R_scope.

Lemma three : forall x : float, nan_p x = false -> number x \/ x = plus_inf \/ x = minus_inf.
Proof. intros [s|[|]| |s m e b] H; try discriminate; auto; left; reflexivity. Qed.
Lemma pos_form : forall x, number x -> 0 < val x -> exists m e b, x = B754_finite false m e b.
Proof.
  intros [s|s| |s m e b] F V; unfold val, B2R in V; try discriminate; try lra. destruct s; [|eauto]. exfalso. unfold cond_Zopp in V.
  assert (N : F2R (Float radix2 (- Z.pos m) e) < 0) by (apply F2R_lt_0; reflexivity). lra.
Qed.
Lemma neg_form : forall x, number x -> val x < 0 -> exists m e b, x = B754_finite true m e b.
Proof.
  intros [s|s| |s m e b] F V; unfold val, B2R in V; try discriminate; try lra. destruct s; [eauto|]. exfalso. unfold cond_Zopp in V.
  assert (N : 0 < F2R (Float radix2 (Z.pos m) e)) by (apply F2R_gt_0; reflexivity). lra.
Qed.
Lemma zero_form : forall x, number x -> val x = 0 -> exists s, x = B754_zero s.
Proof.
  intros [s|s| |s m e b] F V; unfold val, B2R in V; try discriminate; eauto. exfalso.
  assert (N : F2R (Float radix2 (cond_Zopp s (Z.pos m)) e) <> 0) by (intros Z; apply eq_0_F2R in Z; destruct s; discriminate). apply N, V.
Qed.
Lemma zero_val : forall s, number (B754_zero s : float) /\ val (B754_zero s : float) = 0.
Proof. intros s. split; reflexivity. Qed.
Lemma not_nan : forall x, number x -> nan_p x = false.
Proof. intros [s|s| |s m e b] H; try discriminate; reflexivity. Qed.
Lemma neg_num : forall x, number x -> number (fneg x) /\ val (fneg x) = - val x.
Proof. intros x H. unfold number, fneg, val. rewrite is_finite_Bopp, B2R_Bopp. split; [exact H | reflexivity]. Qed.
Lemma neg_nan : forall x, nan_p (fneg x) = nan_p x.
Proof. now intros [s|s| |s m e b]. Qed.

Lemma mul_nn : forall x y, number x -> number y -> nan_p (fmul x y) = false.
Proof.
  intros x y Hx Hy. pose proof (Bmult_correct 53 1024 prec53 emax1024 mode_NE x y) as B. destruct (Rlt_bool _ _) in B.
  - destruct B as (_ & B & _). apply not_nan. unfold number, fmul in *. rewrite B, Hx, Hy. reflexivity.
  - unfold fmul. unfold binary_overflow in B. destruct (Bmult mode_NE x y); cbn in *; try reflexivity; discriminate.
Qed.
Lemma add_nn : forall x y, number x -> number y -> nan_p (fadd x y) = false.
Proof.
  intros x y Hx Hy. pose proof (Bplus_correct 53 1024 prec53 emax1024 mode_NE x y Hx Hy) as B. destruct (Rlt_bool _ _) in B.
  - destruct B as (_ & B & _). apply not_nan. exact B.
  - destruct B as (B & _). unfold fadd. unfold binary_overflow in B. destruct (Bplus mode_NE x y); cbn in *; try reflexivity; discriminate.
Qed.
Lemma div_nn : forall x y, number x -> val y <> 0 -> nan_p (fdiv x y) = false.
Proof.
  intros x y Hx Hy. pose proof (Bdiv_correct 53 1024 prec53 emax1024 mode_NE x y Hy) as B. destruct (Rlt_bool _ _) in B.
  - destruct B as (_ & B & _). apply not_nan. unfold number, fdiv in *. rewrite B. exact Hx.
  - unfold fdiv. unfold binary_overflow in B. destruct (Bdiv mode_NE x y); cbn in *; try reflexivity; discriminate.
Qed.

(** ---- constants *)
Lemma of1 : number (of_Z 1) /\ val (of_Z 1) = 1.
Proof. apply (of_Z_ok 1). lia. Qed.
Lemma half_ok : number half /\ val half = / 2.
Proof. exact lit_half. Qed.
Lemma mhalf_ok : number minus_half /\ val minus_half = - / 2.
Proof. destruct (lit_ok (-1) (-1)) as [A B]; [lia|lia|]. split; [exact A|]. unfold minus_half. rewrite B. cbn. lra. Qed.
Lemma sqrt_2pi_ok : number sqrt_2pi /\ 1 < val sqrt_2pi.
Proof.
  assert (N : number sqrt_2pi) by (vm_compute; reflexivity). split; [exact N|]. destruct of1 as [O V].
  assert (F : flt (of_Z 1) sqrt_2pi = true) by (vm_compute; reflexivity). apply (flt_true _ _ O N) in F. lra.
Qed.
Lemma sqrt_2_ok : number sqrt_2 /\ 1 < val sqrt_2 < 3 / 2.
Proof.
  assert (N : number sqrt_2) by (vm_compute; reflexivity). split; [exact N|]. destruct of1 as [O V]. destruct (lit_ok 3 (-1)) as [A B]; [lia|lia|].
  assert (F : flt (of_Z 1) sqrt_2 = true) by (vm_compute; reflexivity). apply (flt_true _ _ O N) in F.
  assert (G : flt sqrt_2 (lit 3 (-1)) = true) by (vm_compute; reflexivity). apply (flt_true _ _ N A) in G. rewrite B in G. change (bpow radix2 (-1)) with (/ 2) in G. lra.
Qed.
Lemma tenth10_ok : number tenth10 /\ 0 < val tenth10.
Proof.
  destruct (lit_ok 7737125245533627 (-86)) as [A B]; [cbn; lia|lia|]. split; [exact A|]. unfold tenth10. rewrite B.
  apply Rmult_lt_0_compat; [lra | apply bpow_gt_0].
Qed.
Lemma clipped_ok : forall s, number s -> number (clipped s) /\ val tenth10 <= val (clipped s) /\ (val tenth10 <= val s -> clipped s = s).
Proof.
  intros s H. destruct tenth10_ok as [T P]. unfold clipped. destruct (flt s tenth10) eqn:F.
  - apply (flt_true _ _ H T) in F. split; [exact T|]. split; [lra|]. intros; lra.
  - apply (flt_false _ _ H T) in F. auto.
Qed.

(** ---- the quantiles *)
Lemma u_nn : forall par fmin m s, number par -> number fmin -> number m -> number s -> 0 < val s -> nan_p (quantile_u par fmin m s) = false.
Proof.
  intros par fmin m s Hp Hf Hm Hs Ps. unfold quantile_u.
  assert (Z : val s <> 0) by lra. destruct (pos_form s Hs Ps) as (ms & es & bs & Es).
  assert (I : forall b, fdiv (B754_infinity b) s = B754_infinity b) by (intros b; rewrite Es; destruct b; reflexivity).
  destruct (three _ (sub_nan fmin m Hf Hm)) as [H|[H|H]].
  - destruct (three _ (sub_nan _ par H Hp)) as [K|[K|K]]; [now apply div_nn | rewrite K; unfold plus_inf; now rewrite I | rewrite K; unfold minus_inf; now rewrite I].
  - rewrite H. replace (fsub plus_inf par) with plus_inf by (destruct par; try discriminate; reflexivity). unfold plus_inf. now rewrite I.
  - rewrite H. replace (fsub minus_inf par) with minus_inf by (destruct par; try discriminate; reflexivity). unfold minus_inf. now rewrite I.
Qed.
Lemma scaled_nn : forall u, nan_p u = false -> nan_p (fdiv (fneg u) sqrt_2) = false.
Proof.
  intros u H. destruct sqrt_2_ok as [N B]. destruct (pos_form _ N ltac:(lra)) as (ms & es & bs & Es).
  destruct (three u H) as [K|[->| ->]]; [apply div_nn; [now apply neg_num | lra] | |]; rewrite Es; reflexivity.
Qed.
Lemma half_mul : forall x, number x -> number (fmul half x) /\ val (fmul half x) = rnd (/ 2 * val x).
Proof.
  intros x H. destruct half_ok as [N V]. destruct (fmul_ok half x N H) as [A B].
  - rewrite V. apply (between_lt (- Rabs (val x)) (Rabs (val x))); [rewrite Rabs_Ropp, Rabs_Rabsolu; apply val_lt | rewrite Rabs_Rabsolu; apply val_lt|].
    apply rnd_between; [apply generic_format_opp, generic_format_abs, F64_val | apply generic_format_abs, F64_val|]. 
    pose proof (Rle_abs (val x)). pose proof (Rle_abs (- val x)). rewrite Rabs_Ropp in *. lra.
  - rewrite V in B. auto.
Qed.
Lemma Phi_ok : forall L u, libm_like L -> nan_p u = false -> number (quantile_Phi L u) /\ 0 <= val (quantile_Phi L u) <= 1.
Proof.
  intros L u HL H. destruct (erfc_range L HL _ (scaled_nn u H)) as [N R]. destruct (half_mul _ N) as [A B]. split; [exact A|].
  unfold quantile_Phi. rewrite B. apply rnd_between; [apply generic_format_0 | exact (F64_IZR 1 ltac:(cbn; lia)) | lra].
Qed.
Lemma exponent : forall u, nan_p u = false -> at_most 0 (fmul minus_half (fmul u u)).
Proof.
  intros u H. destruct (nn_square u H) as [Q _]. destruct mhalf_ok as [N V]. destruct (neg_form _ N ltac:(lra)) as (m & e & b & E). destruct Q as [[A P]|I].
  - right. destruct (fmul_ok minus_half (fmul u u) N A) as [K W].
    + rewrite V. apply (between_lt (- val (fmul u u)) 0); [rewrite Rabs_Ropp; apply val_lt | rewrite Rabs_R0; apply bpow_gt_0|].
      apply rnd_between; [apply generic_format_opp, F64_val | apply generic_format_0|]. lra.
    + split; [exact K|]. rewrite W, V. rewrite <- rnd_0. apply rnd_mono. lra.
  - left. rewrite I, E. reflexivity.
Qed.
Lemma exponent_low : forall u, number u -> val u <= -50 -> at_most (-1076) (fmul minus_half (fmul u u)).
Proof.
  intros u H Hu. destruct (nn_square u (not_nan u H)) as [Q _]. destruct mhalf_ok as [N V]. destruct (neg_form _ N ltac:(lra)) as (m & e & b & E).
  destruct Q as [[A P]|I].
  - right. destruct (fmul_ok minus_half (fmul u u) N A) as [K W].
    + rewrite V. apply (between_lt (- val (fmul u u)) 0); [rewrite Rabs_Ropp; apply val_lt | rewrite Rabs_R0; apply bpow_gt_0|].
      apply rnd_between; [apply generic_format_opp, F64_val | apply generic_format_0|]. lra.
    + split; [exact K|]. rewrite W, V. rewrite <- (rnd_F (-1076)) by (apply F64_IZR; cbn; lia). apply rnd_mono.
      destruct (fmul_number u (not_nan u H) A) as [_ S]. rewrite S.
      assert (G : 2500 <= rnd (val u * val u)) by (rewrite <- (rnd_F 2500) by (apply F64_IZR; cbn; lia); apply rnd_mono; nra). lra.
  - left. rewrite I, E. reflexivity.
Qed.
Lemma phi_ok : forall L u, libm_like L -> nan_p u = false -> number (quantile_phi L u) /\ 0 <= val (quantile_phi L u) <= 1.
Proof.
  intros L u HL H. destruct (exp_range L HL _ (exponent u H)) as [N R]. destruct sqrt_2pi_ok as [M P]. unfold quantile_phi.
  set (x := exp_f L (fmul minus_half (fmul u u))) in *.
  assert (Q : 0 <= val x / val sqrt_2pi <= 1).
  { split; [apply le_div; lra|]. apply div_le; lra. }
  assert (Q' : 0 <= rnd (val x / val sqrt_2pi) <= 1) by (apply rnd_between; [apply generic_format_0 | exact (F64_IZR 1 ltac:(cbn; lia)) | exact Q]).
  destruct (fdiv_ok x sqrt_2pi N) as [A B]; [lra | apply small_lt; rewrite Rabs_pos_eq; lra|]. rewrite B. auto.
Qed.

(** ---- EI *)
Lemma mul_unit : forall u P, number u -> number P -> 0 <= val P <= 1 -> number (fmul u P) /\ Rabs (val (fmul u P)) <= Rabs (val u).
Proof.
  intros u P Hu HP B.
  assert (Q : - Rabs (val u) <= rnd (val u * val P) <= Rabs (val u)).
  { apply rnd_between; [apply generic_format_opp, generic_format_abs, F64_val | apply generic_format_abs, F64_val|].
    assert (W : Rabs (val u * val P) <= Rabs (val u)).
    { rewrite Rabs_mult, (Rabs_pos_eq (val P)) by lra. pose proof (Rabs_pos (val u)). nra. }
    pose proof (Rle_abs (val u * val P)). pose proof (Rle_abs (- (val u * val P))). rewrite Rabs_Ropp in *. lra. }
  destruct (fmul_ok u P Hu HP) as [A E].
  - apply (between_lt (- Rabs (val u)) (Rabs (val u))); [rewrite Rabs_Ropp, Rabs_Rabsolu; apply val_lt | rewrite Rabs_Rabsolu; apply val_lt | exact Q].
  - split; [exact A|]. rewrite E. apply Rabs_le. exact Q.
Qed.
Lemma pos_mul_nn : forall s x, number s -> 0 < val s -> nan_p x = false -> nan_p (fmul s x) = false.
Proof.
  intros s x Hs Ps Hx. destruct (three x Hx) as [H|[->| ->]]; [now apply mul_nn | |]; destruct (pos_form s Hs Ps) as (m & e & b & ->); reflexivity.
Qed.
Lemma u_pos : forall par fmin m s, number par -> number fmin -> number m -> number s ->
  nan_p (quantile_u par fmin m (clipped s)) = false /\ number (clipped s) /\ 0 < val (clipped s).
Proof.
  intros par fmin m s Hp Hf Hm Hs. destruct (clipped_ok s Hs) as (C1 & C2 & _). destruct tenth10_ok. assert (0 < val (clipped s)) by lra.
  split; [apply u_nn; auto | auto].
Qed.
Lemma ei_nan : forall L par fmin m s, libm_like L -> number par -> number fmin -> number m -> number s ->
  (nan_p (ei_f L par fmin m s) = true <-> quantile_u par fmin m (clipped s) = minus_inf).
Proof.
  intros L par fmin m s HL Hp Hf Hm Hs. destruct (u_pos par fmin m s Hp Hf Hm Hs) as (U & C & P). unfold ei_f. cbn zeta.
  set (u := quantile_u par fmin m (clipped s)) in *. destruct (Phi_ok L u HL U) as [NP RP]. destruct (phi_ok L u HL U) as [Np Rp]. split.
  - intros H. destruct (three u U) as [K|[K|K]]; [exfalso|exfalso|exact K].
    + destruct (mul_unit u _ K NP RP) as [A _]. rewrite pos_mul_nn in H; [discriminate | exact C | exact P | now apply add_nn].
    + assert (PP : 0 < val (quantile_Phi L u)).
      { rewrite K. unfold quantile_Phi. replace (fdiv (fneg plus_inf) sqrt_2) with minus_inf.
        - destruct (erfc_range L HL minus_inf eq_refl) as [N _]. destruct (half_mul _ N) as [_ ->]. pose proof (erfc_left L HL minus_inf (or_introl eq_refl)) as Q.
          apply Rlt_le_trans with (/ 2); [lra|]. assert (F : F64 (/ 2)) by (rewrite <- (proj2 half_ok); apply F64_val). rewrite <- (rnd_F _ F) at 1. apply rnd_mono. lra.
        - destruct sqrt_2_ok as [N B]. destruct (pos_form _ N ltac:(lra)) as (ms & es & bs & ->). reflexivity. }
      assert (S : fmul u (quantile_Phi L u) = plus_inf) by (destruct (pos_form _ NP PP) as (a & b & c & Ef); rewrite Ef, K; reflexivity).
      rewrite S in H. assert (S2 : fadd plus_inf (quantile_phi L u) = plus_inf) by (destruct (quantile_phi L u); try discriminate; reflexivity).
      rewrite S2, pos_mul_nn in H; [discriminate | exact C | exact P | reflexivity].
  - intros K. assert (Z : val (quantile_Phi L u) = 0).
    { rewrite K. unfold quantile_Phi. replace (fdiv (fneg minus_inf) sqrt_2) with plus_inf.
      - destruct (erfc_range L HL plus_inf eq_refl) as [N _]. destruct (half_mul _ N) as [_ ->].
        rewrite (erfc_underflow L HL plus_inf (or_introl eq_refl)), Rmult_0_r. apply rnd_0.
      - destruct sqrt_2_ok as [N B]. destruct (pos_form _ N ltac:(lra)) as (ms & es & bs & ->). reflexivity. }
    destruct (zero_form _ NP Z) as [b Ef]. rewrite Ef, K. destruct (quantile_phi L u); destruct (clipped s); destruct b; try discriminate; reflexivity.
Qed.

(** ---- far above the minimum everything is zero *)
Lemma Phi_zero : forall L u, libm_like L -> number u -> val u <= -50 -> val (quantile_Phi L u) = 0.
Proof.
  intros L u HL H Hu. unfold quantile_Phi. destruct sqrt_2_ok as [N B]. destruct (neg_num u H) as [Nn Vn].
  assert (Q : at_least 33 (fdiv (fneg u) sqrt_2)).
  { right. assert (D : 33 <= val (fneg u) / val sqrt_2 <= val (fneg u)).
    { rewrite Vn. split; [apply le_div; nra|]. apply div_le; nra. }
    destruct (fdiv_ok (fneg u) sqrt_2 Nn) as [A E]; [lra| |].
    - apply (between_lt 0 (val (fneg u))); [rewrite Rabs_R0; apply bpow_gt_0 | apply val_lt|]. apply rnd_between; [apply generic_format_0 | apply F64_val | lra].
    - split; [exact A|]. rewrite E. rewrite <- (rnd_F 33) by (apply F64_IZR; cbn; lia). apply rnd_mono. lra. }
  assert (NN : nan_p (fdiv (fneg u) sqrt_2) = false) by (apply scaled_nn, not_nan, H).
  destruct (erfc_range L HL _ NN) as [N' _]. destruct (half_mul _ N') as [_ ->]. rewrite (erfc_underflow L HL _ Q), Rmult_0_r. apply rnd_0.
Qed.
Lemma phi_zero : forall L u, libm_like L -> number u -> val u <= -50 -> val (quantile_phi L u) = 0.
Proof.
  intros L u HL H Hu. unfold quantile_phi. pose proof (exp_underflow L HL _ (exponent_low u H Hu)) as Z.
  destruct (exp_range L HL _ (exponent u (not_nan u H))) as [N _]. destruct sqrt_2pi_ok as [M P].
  destruct (fdiv_ok _ sqrt_2pi N) as [_ E]; [lra| |].
  - rewrite Z. unfold Rdiv. rewrite Rmult_0_l, rnd_0, Rabs_R0. apply bpow_gt_0.
  - rewrite E, Z. unfold Rdiv. rewrite Rmult_0_l. apply rnd_0.
Qed.
Lemma plateau : forall L par fmin m s, libm_like L -> number par -> number fmin -> number m -> number s ->
  number (quantile_u par fmin m (clipped s)) -> val (quantile_u par fmin m (clipped s)) <= -50 ->
  (number (ei_f L par fmin m s) /\ val (ei_f L par fmin m s) = 0) /\ (number (mpi_f L par fmin m s) /\ val (mpi_f L par fmin m s) = 0).
Proof.
  intros L par fmin m s HL Hp Hf Hm Hs HU Hu. destruct (u_pos par fmin m s Hp Hf Hm Hs) as (U & C & P). unfold ei_f, mpi_f. cbn zeta.
  set (u := quantile_u par fmin m (clipped s)) in *. destruct (Phi_ok L u HL U) as [NP _]. destruct (phi_ok L u HL U) as [Np _].
  pose proof (Phi_zero L u HL HU Hu) as Z1. pose proof (phi_zero L u HL HU Hu) as Z2. split; [|auto].
  destruct (zero_form _ NP Z1) as [b1 E1]. destruct (zero_form _ Np Z2) as [b2 E2]. rewrite E1, E2.
  destruct (neg_form u HU ltac:(lra)) as (a & e & h & ->). destruct (pos_form _ C P) as (a' & e' & h' & ->).
  destruct b1, b2; split; reflexivity.
Qed.

(** ---- weighting *)
Lemma mul_one : forall f, number f -> number (fmul f (of_Z 1)) /\ val (fmul f (of_Z 1)) = val f.
Proof.
  intros f H. destruct of1 as [O V]. destruct (fmul_ok f (of_Z 1) H O) as [A B]; rewrite V, Rmult_1_r in *; rewrite (rnd_F _ (F64_val f)) in *; [apply val_lt | auto].
Qed.
Lemma mul_zero : forall f, number f -> number (fmul f (of_Z 0)) /\ val (fmul f (of_Z 0)) = 0.
Proof.
  intros f H. destruct f0_ok as [O V]. destruct (fmul_ok f f0 H O) as [A B]; rewrite V, Rmult_0_r, rnd_0 in *; [rewrite Rabs_R0; apply bpow_gt_0 | auto].
Qed.
Lemma weighted_out : forall f c, number f -> val c <> 0 -> number (weighted_f f (indicator_of false) c) /\ val (weighted_f f (indicator_of false) c) = 0.
Proof.
  intros f c Hf Hc. unfold weighted_f, indicator_of. destruct (mul_zero f Hf) as [A B]. destruct (neg_num _ A) as [A' B'].
  destruct (fdiv_ok _ c A' Hc) as [C D]; rewrite B', B in *; replace (- 0 / val c) with 0 in * by (unfold Rdiv; lra); rewrite rnd_0 in *; [rewrite Rabs_R0; apply bpow_gt_0 | auto].
Qed.
Lemma weighted_in : forall f c, number f -> val c <> 0 -> nan_p (weighted_f f (indicator_of true) c) = false /\
  (number (weighted_f f (indicator_of true) c) -> val (weighted_f f (indicator_of true) c) = rnd (- (val f / val c))).
Proof.
  intros f c Hf Hc. unfold weighted_f, indicator_of. destruct (mul_one f Hf) as [A B]. destruct (neg_num _ A) as [A' B']. split; [now apply div_nn|].
  intros N. destruct (fdiv_finite _ c Hc N) as [_ ->]. rewrite B', B. f_equal. unfold Rdiv. ring.
Qed.

(** ---- feasible against infeasible *)
Lemma rnd_opp : forall x, rnd (- x) = - rnd x.
Proof. intros x. unfold rnd. apply round_NE_opp. Qed.
Lemma flt_low : forall y, number y -> flt minus_inf y = true.
Proof. intros [s|s| |s m e b] H; try discriminate; reflexivity. Qed.
Lemma flt_high : forall y, number y -> flt plus_inf y = false.
Proof. intros [s|s| |s m e b] H; try discriminate; reflexivity. Qed.
Lemma prefers : forall f c, number f -> number c -> 0 <= val f -> 0 < val c ->
  flt (weighted_f f (indicator_of false) c) (weighted_f f (indicator_of true) c) = false /\
  (flt (weighted_f f (indicator_of true) c) (weighted_f f (indicator_of false) c) = true <-> nearest (val f / val c) <> 0).
Proof.
  intros f c Hf Hc Pf Pc. destruct (weighted_out f c Hf ltac:(lra)) as [O V]. destruct (weighted_in f c Hf ltac:(lra)) as [I W].
  assert (D : 0 <= val f / val c) by (apply le_div; lra).
  assert (RD : 0 <= rnd (val f / val c)) by now apply rnd_nonneg. change (nearest (val f / val c)) with (rnd (val f / val c)).
  destruct (three _ I) as [N|N].
  - specialize (W N). rewrite rnd_opp in W. split.
    + destruct (flt _ _) eqn:E; [|reflexivity]. apply (flt_true _ _ O N) in E. lra.
    + split.
      * intros E. apply (flt_true _ _ N O) in E. lra.
      * intros Z. destruct (flt _ _) eqn:E; [reflexivity|]. apply (flt_false _ _ N O) in E. lra.
  - assert (K : weighted_f f (indicator_of true) c = minus_inf /\ rnd (val f / val c) <> 0).
    { unfold weighted_f, indicator_of in *. destruct (mul_one f Hf) as [A B]. destruct (neg_num _ A) as [A' B'].
      pose proof (Bdiv_correct 53 1024 prec53 emax1024 mode_NE (fneg (fmul f (of_Z 1))) c ltac:(unfold val in Pc; lra)) as Q.
      destruct (Rlt_bool _ _) eqn:E in Q.
      - destruct Q as (_ & Q & _). exfalso. unfold number, fdiv in *. rewrite A' in Q. destruct N as [N|N]; unfold fdiv in N; rewrite N in Q; discriminate.
      - assert (Z : rnd (val f / val c) <> 0).
        { intros Z. change (round radix2 (fexp 53 1024) (round_mode mode_NE) (B2R (fneg (fmul f (of_Z 1))) / B2R c)) with (rnd (val (fneg (fmul f (of_Z 1))) / val c)) in E.
          rewrite B', B in E. replace (- val f / val c) with (- (val f / val c)) in E by (unfold Rdiv; ring). rewrite rnd_opp, Z, Ropp_0, Rabs_R0 in E.
          rewrite Rlt_bool_true in E by apply bpow_gt_0. discriminate. }
        split; [|exact Z].
        assert (P : 0 < val f). { destruct Pf as [P|P]; [exact P|]. exfalso. apply Z. rewrite <- P. unfold Rdiv. rewrite Rmult_0_l. apply rnd_0. }
        destruct (neg_form _ A' ltac:(lra)) as (a & e & h & Ef). destruct (pos_form c Hc Pc) as (a' & e' & h' & Ec).
        unfold fdiv in *. rewrite Ef, Ec in *. destruct N as [N|N]; [|exact N]. rewrite N in Q. discriminate. }
    destruct K as [K Z]. rewrite K. split; [|split; [auto | intros _; now apply flt_low]].
    revert O. generalize (weighted_f f (indicator_of false) c). intros [s|s| |s m e b] O; try discriminate; reflexivity.
Qed.
Lemma no_cost : forall f c, number f -> number c -> val c = 0 -> nan_p (weighted_f f (indicator_of false) c) = true.
Proof.
  intros f c Hf Hc Z. unfold weighted_f, indicator_of. destruct (mul_zero f Hf) as [A B]. destruct (zero_form _ A B) as [b ->]. destruct (zero_form _ Hc Z) as [b' ->]. now destruct b, b'.
Qed.

(** ---- the value that comes with the gradient *)
Lemma twice_in : forall f c, number f -> number c -> val c <> 0 -> same (weighted_f f (indicator_of true) c) (weighted_withGradients_f f (indicator_of true) c).
Proof.
  intros f c Hf Hc Z. unfold weighted_f, weighted_withGradients_f, indicator_of. destruct (mul_one f Hf) as [A B]. destruct (neg_num _ A) as [A' B'].
  destruct (three _ (div_nn f c Hf Z)) as [N|N].
  - destruct (fdiv_finite f c Z N) as [_ V]. destruct (neg_num _ N) as [N' V']. destruct (mul_one _ N') as [C D]. left.
    assert (O : - (val (fmul f (of_Z 1))) / val c = - (val f / val c)) by (rewrite B; unfold Rdiv; ring).
    destruct (fdiv_ok _ c A' Z) as [E G]; [|].
    + rewrite B', O, rnd_opp, <- V, Rabs_Ropp. apply val_lt.
    + split; [exact E|]. split; [exact C|]. rewrite D, V', V, G, B', O, rnd_opp. reflexivity.
  - right. pose proof (Bdiv_correct 53 1024 prec53 emax1024 mode_NE f c Z) as Q.
    pose proof (Bdiv_correct 53 1024 prec53 emax1024 mode_NE (fneg (fmul f (of_Z 1))) c Z) as Q'.
    change (round radix2 (fexp 53 1024) (round_mode mode_NE) (B2R (fneg (fmul f (of_Z 1))) / B2R c)) with (rnd (val (fneg (fmul f (of_Z 1))) / val c)) in Q'.
    rewrite B', B in Q'. replace (- val f / val c) with (- (val f / val c)) in Q' by (unfold Rdiv; ring). rewrite rnd_opp, Rabs_Ropp in Q'.
    change (round radix2 (fexp 53 1024) (round_mode mode_NE) (B2R f / B2R c)) with (rnd (val f / val c)) in Q.
    destruct (Rlt_bool (Rabs (rnd (val f / val c))) (bpow radix2 1024)) eqn:E.
    + exfalso. destruct Q as (_ & Q & _). unfold number, fdiv in *. rewrite Hf in Q. destruct N as [N|N]; rewrite N in Q; discriminate.
    + assert (NZ : val f <> 0).
      { intros W. rewrite W in E. unfold Rdiv in E. rewrite Rmult_0_l, rnd_0, Rabs_R0, Rlt_bool_true in E by apply bpow_gt_0. discriminate. }
      assert (S : Bsign (fneg (fmul f (of_Z 1))) = negb (Bsign f)).
      { destruct (Rtotal_order (val f) 0) as [L|[L|L]]; [| contradiction |].
        - destruct (neg_form f Hf L) as (? & ? & ? & Ef). destruct (pos_form _ A' ltac:(rewrite B'; lra)) as (? & ? & ? & ->). now rewrite Ef.
        - destruct (pos_form f Hf ltac:(lra)) as (? & ? & ? & Ef). destruct (neg_form _ A' ltac:(rewrite B'; lra)) as (? & ? & ? & ->). now rewrite Ef. }
      rewrite S in Q'. unfold fdiv. unfold binary_overflow, overflow_to_inf in Q, Q'.
      destruct (Bdiv mode_NE f c) as [?|b| |? ? ? ?]; try discriminate. destruct (Bdiv mode_NE (fneg (fmul f (of_Z 1))) c) as [?|b'| |? ? ? ?]; try discriminate.
      cbn in Q, Q'. exists b'. split; [reflexivity|]. assert (b' = negb b).
      { assert (I : forall x y, S754_infinity x = S754_infinity y -> x = y) by congruence. apply I in Q, Q'. rewrite Q, Q'. now destruct (Bsign f), (Bsign c). }
      subst b'. destruct b; reflexivity.
Qed.
Lemma twice_out : forall f c, number f -> number c -> val c <> 0 ->
  (number (fdiv f c) -> same (weighted_f f (indicator_of false) c) (weighted_withGradients_f f (indicator_of false) c)) /\
  (~ number (fdiv f c) -> nan_p (weighted_withGradients_f f (indicator_of false) c) = true).
Proof.
  intros f c Hf Hc Z. destruct (weighted_out f c Hf Z) as [A B]. unfold weighted_withGradients_f, indicator_of. split.
  - intros N. left. destruct (neg_num _ N) as [N' _]. destruct (mul_zero _ N') as [C D]. split; [exact A|]. split; [exact C|]. etransitivity; [exact B | symmetry; exact D].
  - intros N. destruct (three _ (div_nn f c Hf Z)) as [K|[K|K]]; [contradiction | rewrite K; reflexivity | rewrite K; reflexivity].
Qed.

(** ---- LCB and MPI are monotone *)
Lemma lcb_nn : forall w m s, number w -> number m -> number s -> nan_p (lcb_f w m s) = false.
Proof.
  intros w m s Hw Hm Hs. unfold lcb_f. destruct (neg_num m Hm) as [N _]. destruct (three _ (mul_nn w s Hw Hs)) as [K|[K|K]]; [now apply add_nn | |];
    rewrite K; revert N; generalize (fneg m); intros [?|?| |? ? ? ?] N; try discriminate; reflexivity.
Qed.
Lemma lcb_num : forall w m s, number w -> number m -> number s -> number (lcb_f w m s) ->
  number (fmul w s) /\ val (lcb_f w m s) = rnd (- val m + rnd (val w * val s)).
Proof.
  intros w m s Hw Hm Hs H. unfold lcb_f in *. destruct (neg_num m Hm) as [N V].
  assert (K : number (fmul w s)).
  { destruct (three _ (mul_nn w s Hw Hs)) as [K|[K|K]]; [exact K| |]; exfalso; rewrite K in H; revert N H; generalize (fneg m);
      intros [?|?| |? ? ? ?] N H; discriminate. }
  split; [exact K|]. rewrite (fadd_finite _ _ N K H), V, (fmul_finite _ _ K). reflexivity.
Qed.
Lemma lcb_mono : forall w m s m' s', number w -> 0 <= val w -> number m -> number s -> number m' -> number s' ->
  number (lcb_f w m s) -> number (lcb_f w m' s') -> val m <= val m' -> val s' <= val s -> val (lcb_f w m' s') <= val (lcb_f w m s).
Proof.
  intros w m s m' s' Hw Pw Hm Hs Hm' Hs' H H' Lm Ls. destruct (lcb_num w m s Hw Hm Hs H) as [_ ->]. destruct (lcb_num w m' s' Hw Hm' Hs' H') as [_ ->].
  apply rnd_mono. apply Rplus_le_compat; [lra|]. apply rnd_mono. apply Rmult_le_compat_l; assumption.
Qed.
Lemma u_num : forall par fmin m s, number par -> number fmin -> number m -> number s -> 0 < val s -> number (quantile_u par fmin m s) ->
  val (quantile_u par fmin m s) = rnd (rnd (rnd (val fmin - val m) - val par) / val s).
Proof.
  intros par fmin m s Hp Hf Hm Hs Ps H. unfold quantile_u in *. destruct (pos_form s Hs Ps) as (ms & es & bs & Es).
  destruct (fdiv_finite _ s ltac:(lra) H) as [N ->].
  assert (K : number (fsub fmin m)).
  { destruct (three _ (sub_nan fmin m Hf Hm)) as [K|[K|K]]; [exact K| |]; exfalso; rewrite K in N; revert Hp N; destruct par; intros; discriminate. }
  rewrite (fsub_finite _ _ K Hp N), (fsub_finite _ _ Hf Hm K). reflexivity.
Qed.
Lemma Phi_mono : forall L u u', libm_like L -> number u -> number u' -> val u <= val u' -> val (quantile_Phi L u) <= val (quantile_Phi L u').
Proof.
  intros L u u' HL H H' Hu. unfold quantile_Phi. destruct sqrt_2_ok as [N B].
  assert (G : forall v, number v -> number (fdiv (fneg v) sqrt_2) /\ val (fdiv (fneg v) sqrt_2) = rnd (- val v / val sqrt_2)).
  { intros v Hv. destruct (neg_num v Hv) as [Nn Vn]. destruct (fdiv_ok (fneg v) sqrt_2 Nn) as [A E]; [lra| |rewrite Vn in E; auto].
    rewrite Vn. apply (between_lt (- Rabs (val v)) (Rabs (val v))); [rewrite Rabs_Ropp, Rabs_Rabsolu; apply val_lt | rewrite Rabs_Rabsolu; apply val_lt|].
    apply rnd_between; [apply generic_format_opp, generic_format_abs, F64_val | apply generic_format_abs, F64_val|].
    pose proof (Rle_abs (val v)). pose proof (Rle_abs (- val v)). rewrite Rabs_Ropp in *. pose proof (Rabs_pos (val v)).
    split; [apply le_div; nra | apply div_le; nra]. }
  destruct (G u H) as [A E]. destruct (G u' H') as [A' E'].
  assert (Le : val (fdiv (fneg u') sqrt_2) <= val (fdiv (fneg u) sqrt_2)).
  { rewrite E, E'. apply rnd_mono. apply Rmult_le_compat_r; [left; apply Rinv_0_lt_compat; lra | lra]. }
  pose proof (erfc_decreasing L HL _ _ A' A Le) as D.
  destruct (erfc_range L HL _ (not_nan _ A)) as [X _]. destruct (erfc_range L HL _ (not_nan _ A')) as [X' _].
  destruct (half_mul _ X) as [_ ->]. destruct (half_mul _ X') as [_ ->]. apply rnd_mono. lra.
Qed.
Lemma mpi_mono : forall L par fmin m m' s, libm_like L -> number par -> number fmin -> number m -> number m' -> number s ->
  number (quantile_u par fmin m (clipped s)) -> number (quantile_u par fmin m' (clipped s)) -> val m <= val m' ->
  val (mpi_f L par fmin m' s) <= val (mpi_f L par fmin m s).
Proof.
  intros L par fmin m m' s HL Hp Hf Hm Hm' Hs U U' Lm. destruct (u_pos par fmin m s Hp Hf Hm Hs) as (_ & C & P). unfold mpi_f. apply Phi_mono; auto.
  rewrite (u_num par fmin m' _ Hp Hf Hm' C P U'), (u_num par fmin m _ Hp Hf Hm C P U). apply rnd_mono.
  apply Rmult_le_compat_r; [left; now apply Rinv_0_lt_compat|]. apply rnd_mono. apply Rplus_le_compat_r. apply rnd_mono. lra.
Qed.

(** ---- at locations predicted no worse than the minimum EI is far from 0 *)
Lemma F_quarter : F64 (/ 4).
Proof. destruct (lit_ok 1 (-2)) as [A B]; [lia|lia|]. change (bpow radix2 (-2)) with (/ 4) in B. replace (/ 4) with (1 * / 4) by lra. rewrite <- B. apply F64_val. Qed.
Lemma F_half : F64 (/ 2).
Proof. rewrite <- (proj2 half_ok). apply F64_val. Qed.
Lemma F_pow : forall n, (-1074 <= n <= 1023)%Z -> F64 (bpow radix2 n).
Proof. intros n H. apply F64_bpow. lia. Qed.
Lemma sqrt_2pi_le : val sqrt_2pi <= 4.
Proof.
  destruct sqrt_2pi_ok as [N _]. destruct (of_Z_ok 4 ltac:(cbn; lia)) as [O V].
  assert (F : flt sqrt_2pi (of_Z 4) = true) by (vm_compute; reflexivity). apply (flt_true _ _ N O) in F. lra.
Qed.
Lemma exponent_near : forall u, number u -> 0 <= val u <= 1 -> number (fmul minus_half (fmul u u)) /\ -1 <= val (fmul minus_half (fmul u u)) <= 0.
Proof.
  intros u H Hu. destruct mhalf_ok as [N V].
  assert (Q : 0 <= rnd (val u * val u) <= 1) by (apply rnd_between; [apply generic_format_0 | exact (F64_IZR 1 ltac:(cbn; lia)) | nra]).
  destruct (fmul_ok u u H H) as [A B]; [apply small_lt; rewrite Rabs_pos_eq; lra|].
  assert (Q' : -1 <= rnd (val minus_half * val (fmul u u)) <= 0).
  { apply rnd_between; [exact (F64_IZR (-1) ltac:(cbn; lia)) | apply generic_format_0 | rewrite V, B; lra]. }
  destruct (fmul_ok minus_half _ N A) as [C D]; [apply small_lt; apply Rabs_le; lra|]. rewrite D. auto.
Qed.
Lemma ei_large : forall L par fmin m s, libm_like L -> number par -> number fmin -> number m -> number s ->
  number (ei_f L par fmin m s) -> number (quantile_u par fmin m (clipped s)) -> 0 <= val (quantile_u par fmin m (clipped s)) ->
  bpow radix2 (-40) <= val (ei_f L par fmin m s).
Proof.
  intros L par fmin m s HL Hp Hf Hm Hs HE HU Pu. destruct (u_pos par fmin m s Hp Hf Hm Hs) as (U & C & P).
  destruct (clipped_ok s Hs) as (_ & Cl & _). unfold ei_f in *. cbn zeta in *.
  set (u := quantile_u par fmin m (clipped s)) in *. destruct (Phi_ok L u HL U) as [NP RP]. destruct (phi_ok L u HL U) as [Np Rp].
  destruct (mul_unit u _ HU NP RP) as [A _]. pose proof (fmul_finite _ _ A) as VA.
  destruct (three _ (add_nn _ _ A Np)) as [B|B].
  2:{ exfalso. destruct (pos_form _ C P) as (? & ? & ? & Es). rewrite Es in HE. destruct B as [B|B]; rewrite B in HE; discriminate. }
  pose proof (fadd_finite _ _ A Np B) as VB. pose proof (fmul_finite _ _ HE) as VE.
  assert (A0 : 0 <= val (fmul u (quantile_Phi L u))) by (rewrite VA; apply rnd_nonneg, Rmult_le_pos; lra).
  assert (S : bpow radix2 (-4) <= val (fadd (fmul u (quantile_Phi L u)) (quantile_phi L u))).
  { rewrite VB. rewrite <- (rnd_F _ (F_pow (-4) ltac:(lia))). apply rnd_mono. change (bpow radix2 (-4)) with (/ 16).
    destruct (Rle_lt_dec (val u) 1) as [Le|Gt].
    - destruct (exponent_near u HU (conj Pu Le)) as [X1 X2]. pose proof (exp_near L HL _ X1 X2) as X3.
      assert (X4 : / 16 <= val (quantile_phi L u)).
      { destruct (exp_range L HL _ (exponent u U)) as [N R]. destruct sqrt_2pi_ok as [M M']. pose proof sqrt_2pi_le.
        assert (Np' := Np). unfold quantile_phi in Np' |- *. destruct (fdiv_finite _ sqrt_2pi ltac:(lra) Np') as [_ ->].
        assert (F16 : F64 (/ 16)) by exact (F_pow (-4) ltac:(lia)). rewrite <- (rnd_F _ F16). apply rnd_mono. apply le_div; nra. }
      lra.
    - assert (X : / 2 <= val (quantile_Phi L u)).
      { destruct sqrt_2_ok as [N R]. unfold quantile_Phi.
        assert (Am : at_most 0 (fdiv (fneg u) sqrt_2)).
        { destruct (neg_num u HU) as [Nn Vn]. pose proof (scaled_nn u U) as X. destruct (neg_form _ Nn ltac:(lra)) as (? & ? & ? & En).
          destruct (three _ X) as [X'|[X'|X']]; [right|exfalso|left; exact X'].
          - split; [exact X'|]. destruct (fdiv_finite _ sqrt_2 ltac:(lra) X') as [_ ->]. rewrite <- rnd_0. apply rnd_mono. rewrite Vn. apply div_le; lra.
          - pose proof (Bdiv_correct 53 1024 prec53 emax1024 mode_NE (fneg u) sqrt_2 ltac:(unfold val in R; lra)) as Q. unfold fdiv in X'. rewrite X' in Q.
            destruct (Rlt_bool _ _) in Q; [destruct Q as (_ & Q & _); unfold number in Nn; rewrite Nn in Q; discriminate|].
            destruct (pos_form _ N ltac:(lra)) as (? & ? & ? & E2). rewrite En, E2 in Q. discriminate. }
        pose proof (erfc_left L HL _ Am) as X. destruct (erfc_range L HL _ (scaled_nn u U)) as [Y _]. destruct (half_mul _ Y) as [_ ->].
        rewrite <- (rnd_F _ F_half) at 1. apply rnd_mono. lra. }
      assert (/ 2 <= val (fmul u (quantile_Phi L u))) by (rewrite VA; rewrite <- (rnd_F _ F_half) at 1; apply rnd_mono; nra). lra. }
  rewrite VE. rewrite <- (rnd_F _ (F_pow (-40) ltac:(lia))). apply rnd_mono.
  assert (T : bpow radix2 (-36) <= val tenth10).
  { destruct (lit_ok 7737125245533627 (-86)) as [_ V]; [cbn; lia|lia|]. unfold tenth10. rewrite V. replace (-36)%Z with (50 + -86)%Z by lia. rewrite bpow_plus.
    apply Rmult_le_compat_r; [apply bpow_ge_0|]. change (bpow radix2 50) with (IZR (2 ^ 50)). apply IZR_le. cbn. lia. }
  replace (-40)%Z with (-36 + -4)%Z by lia. rewrite bpow_plus. apply Rmult_le_compat; try apply bpow_ge_0; [|exact S]. apply Rle_trans with (val tenth10); assumption.
Qed.
Lemma ei_prefers : forall L par fmin m s c, libm_like L -> number par -> number fmin -> number m -> number s -> number c ->
  number (ei_f L par fmin m s) -> number (quantile_u par fmin m (clipped s)) -> 0 <= val (quantile_u par fmin m (clipped s)) ->
  0 < val c <= bpow radix2 1000 ->
  flt (weighted_f (ei_f L par fmin m s) (indicator_of true) c) (weighted_f (ei_f L par fmin m s) (indicator_of false) c) = true.
Proof.
  intros L par fmin m s c HL Hp Hf Hm Hs Hc HE HU Pu Pc. pose proof (ei_large L par fmin m s HL Hp Hf Hm Hs HE HU Pu) as G.
  pose proof (bpow_gt_0 radix2 (-40)). apply prefers; [exact HE | exact Hc | lra | lra |].
  assert (K : bpow radix2 (-1040) <= rnd (val (ei_f L par fmin m s) / val c)).
  { rewrite <- (rnd_F _ (F_pow (-1040) ltac:(lia))). apply rnd_mono. apply le_div; [lra|].
    apply Rle_trans with (bpow radix2 (-1040) * bpow radix2 1000); [apply Rmult_le_compat_l; [apply bpow_ge_0 | lra]|]. rewrite <- bpow_plus. exact G. }
  change (rnd (val (ei_f L par fmin m s) / val c) <> 0). pose proof (bpow_gt_0 radix2 (-1040)). lra.
Qed.

(** ---- correctly rounded functions *)
Lemma erfc_cdf : forall x, erfc x = 2 * cdf (- (sqrt 2 * x)).
Proof.
  intros x. unfold cdf. pose proof s2_pos. replace (- - (sqrt 2 * x) / sqrt 2) with x by (field; lra). lra.
Qed.
Lemma rnd_tiny : forall x, 0 <= x <= bpow radix2 (-1076) -> rnd x = 0.
Proof.
  intros x H. assert (Z : rnd (bpow radix2 (-1076)) = 0).
  { unfold rnd. apply round_N_small_pos with (ex := (-1075)%Z); [split; [right; reflexivity | apply bpow_lt; lia] | reflexivity]. }
  apply Rle_antisym; [rewrite <- Z; apply rnd_mono; lra | apply rnd_nonneg; lra].
Qed.
Lemma ln2_le : ln 2 <= 1.
Proof.
  pose proof (exp_ineq1 1 ltac:(lra)). destruct (Rle_lt_dec (ln 2) 1) as [K|K]; [exact K|]. apply exp_increasing in K. rewrite exp_ln in K by lra. lra.
Qed.
Lemma exp_tiny : forall x, x <= -1076 -> exp x <= bpow radix2 (-1076).
Proof.
  intros x H. rewrite bpow_exp. change (IZR radix2) with 2. pose proof ln2_le. destruct (Req_dec x (-1076 * ln 2)) as [->|N]; [right; reflexivity|].
  left. apply exp_increasing. pose proof ln2_le. lra.
Qed.
Lemma rounded_like : forall L, correctly_rounded L -> libm_like L.
Proof.
  intros L (E & (Em & Em0) & G & (Gm & Gm2) & (Gp & Gp0)). pose proof s2_pos as S2.
  assert (S2' : 1 <= sqrt 2) by (rewrite <- sqrt_1; apply sqrt_le_1; lra).
  assert (R1 : F64 1) by exact (F64_IZR 1 ltac:(cbn; lia)). assert (R2 : F64 2) by exact (F64_IZR 2 ltac:(cbn; lia)).
  change nearest with rnd in *. split.
  - intros x [-> | [N V]]; [split; [exact Em | rewrite Em0; lra]|]. destruct (E x N V) as [A ->]. split; [exact A|].
    apply rnd_between; [apply generic_format_0 | exact R1|]. split; [left; apply exp_pos|]. destruct V as [V| ->]; [left; rewrite <- exp_0; now apply exp_increasing | rewrite exp_0; lra].
  - intros x N [V1 V2]. destruct (E x N V2) as [_ ->]. rewrite <- (rnd_F _ F_quarter). apply rnd_mono.
    apply Rle_trans with (exp (-1)); [|destruct V1 as [V1| <-]; [left; now apply exp_increasing | right; reflexivity]].
    change (-1) with (Ropp 1). rewrite exp_Ropp. apply Rinv_le_contravar; [apply exp_pos|]. pose proof exp_le_3. lra.
  - intros x [-> | [N V]]; [exact Em0|]. destruct (E x N ltac:(lra)) as [_ ->]. apply rnd_tiny. split; [left; apply exp_pos | now apply exp_tiny].
  - intros x H. destruct (three x H) as [N|[->| ->]]; [|rewrite Gp0; split; [exact Gp | lra] | rewrite Gm2; split; [exact Gm | lra]].
    destruct (G x N) as [A ->]. split; [exact A|]. apply rnd_between; [apply generic_format_0 | exact R2|]. rewrite erfc_cdf.
    pose proof (cdf_pos (- (sqrt 2 * val x))). pose proof (cdf_lt_1 (- (sqrt 2 * val x))). lra.
  - intros x [-> | [N V]]; [rewrite Gm2; lra|]. destruct (G x N) as [_ ->]. rewrite <- (rnd_F _ R1) at 1. apply rnd_mono. rewrite erfc_cdf.
    assert (/ 2 <= cdf (- (sqrt 2 * val x))). { rewrite <- cdf_0. destruct V as [V| ->]; [left; apply cdf_incr; nra | right; f_equal; ring]. } lra.
  - intros x [-> | [N V]]; [exact Gp0|]. destruct (G x N) as [_ ->]. apply rnd_tiny. rewrite erfc_cdf. set (v := sqrt 2 * val x).
    assert (V1 : 33 <= v) by (unfold v; nra). pose proof (h_pos (- v)) as H. pose proof (cdf_pos (- v)) as H1. split; [lra|].
    apply Rle_trans with (phi (- v)); [nra|]. unfold phi. apply Rle_trans with (exp (- / 2 * (- v * - v))).
    + pose proof (exp_pos (- / 2 * (- v * - v))). apply div_le; [apply s2PI_pos|].
      assert (1 <= sqrt (2 * PI)) by (rewrite <- sqrt_1; apply sqrt_le_1; pose proof PI2_1; unfold PI2 in *; pose proof PI_RGT_0; lra). nra.
    + apply exp_tiny. unfold v. replace (- / 2 * (- (sqrt 2 * val x) * - (sqrt 2 * val x))) with (- (/ 2 * (sqrt 2 * sqrt 2) * (val x * val x))) by ring. rewrite s2_sq. nra.
  - intros x y Nx Ny V. destruct (G x Nx) as [_ ->]. destruct (G y Ny) as [_ ->]. apply rnd_mono. rewrite !erfc_cdf.
    assert (cdf (- (sqrt 2 * val y)) <= cdf (- (sqrt 2 * val x))). { destruct V as [V| ->]; [left; apply cdf_incr; nra | lra]. } lra.
Qed.
