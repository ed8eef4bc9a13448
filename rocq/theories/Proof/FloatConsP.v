(** Constraints in double precision: proofs. *)
From Coq Require Import List ZArith Bool Reals Lra Lia Psatz SpecFloat.
From Flocq Require Import Core Plus_error Relative IEEE754.BinarySingleNaN.
From Verif.Model Require Import Py Float FloatStop FloatCons.
From Verif.Spec Require Import FloatSpec FloatConsSpec.
From Verif.Proof Require Import FloatP FloatStopP.
Import ListNotations.
Local Open Scope R_scope.

Lemma rounding_error z : Rabs (rnd z - z) <= rounding (Rabs z).
Proof.
  destruct (error_N_FLT radix2 (-1074) 53 eq_refl (fun n => negb (Z.even n)) z) as (eps & eta & H1 & H2 & _ & E).
  unfold rounding. replace (rnd z - z) with (z * eps + eta) by (fold ZnearestE in E; rewrite E; ring).
  eapply Rle_trans; [apply Rabs_triang|]. rewrite Rabs_mult.
  assert (A : / 2 * bpow radix2 (- (53) + 1) = bpow radix2 (-53)). { change (/ 2) with (bpow radix2 (-1)). rewrite <- bpow_plus. reflexivity. }
  assert (B : / 2 * bpow radix2 (-1074) = bpow radix2 (-1075)). { change (/ 2) with (bpow radix2 (-1)). rewrite <- bpow_plus. reflexivity. }
  rewrite A in H1. rewrite B in H2. pose proof (Rabs_pos z). nra.
Qed.
Lemma rounding_mono a b : a <= b -> rounding a <= rounding b.
Proof. intros H. unfold rounding. pose proof (bpow_gt_0 radix2 (-53)). nra. Qed.
Lemma rounding_pos a : 0 <= a -> 0 <= rounding a.
Proof. intros H. unfold rounding. pose proof (bpow_gt_0 radix2 (-53)). pose proof (bpow_gt_0 radix2 (-1075)). nra. Qed.
(** A rounded result of an operation whose unrounded result is off by at most [d]. *)
Lemma rounded z e d : Rabs (z - e) <= d -> Rabs (rnd z - e) <= d + rounding (Rabs e + d).
Proof.
  intros H. replace (rnd z - e) with ((rnd z - z) + (z - e)) by ring. eapply Rle_trans; [apply Rabs_triang|].
  assert (M : Rabs z <= Rabs e + d). { replace z with (e + (z - e)) by ring. eapply Rle_trans; [apply Rabs_triang|]. lra. }
  pose proof (rounding_error z). pose proof (rounding_mono _ _ M). lra.
Qed.

(** Operations that came out finite did not overflow. *)
Lemma fadd_finite : forall x y, number x -> number y -> number (fadd x y) -> val (fadd x y) = rnd (val x + val y).
Proof.
  intros x y Hx Hy Hz. pose proof (Bplus_correct 53 1024 prec53 emax1024 mode_NE x y Hx Hy) as B.
  destruct (Rlt_bool _ _) in B; [apply B|]. destruct B as [B _]. unfold number, fadd in Hz. destruct (Bplus mode_NE x y) as [s|s| |s m e Hb]; discriminate.
Qed.
Lemma fmul_finite : forall x y, number (fmul x y) -> val (fmul x y) = rnd (val x * val y).
Proof.
  intros x y Hz. pose proof (Bmult_correct 53 1024 prec53 emax1024 mode_NE x y) as B.
  destruct (Rlt_bool _ _) in B; [apply B|]. unfold number, fmul in Hz. destruct (Bmult mode_NE x y) as [s|s| |s m e Hb]; discriminate.
Qed.
Lemma fsqrt_finite : forall x, val (fsqrt x) = rnd (sqrt (val x)).
Proof. intros x. apply (Bsqrt_correct 53 1024 prec53 emax1024 mode_NE x). Qed.
Lemma fsqrt_number x : number (fsqrt x) -> number x -> 0 <= val x.
Proof.
  intros H F. destruct (Bsqrt_correct 53 1024 prec53 emax1024 mode_NE x) as (_ & B & _). unfold number, fsqrt in H. rewrite B in H.
  destruct x as [s|s| |s m e Hb]; try discriminate; [cbn; lra|]. destruct s; [discriminate|]. unfold val. cbn. apply F2R_ge_0. cbn. lia.
Qed.

Lemma sqrt_diff a b : 0 <= a -> Rabs (sqrt a - sqrt b) <= sqrt (Rabs (a - b)).
Proof.
  intros A. assert (K : forall p q, 0 <= p -> p <= q -> sqrt q - sqrt p <= sqrt (q - p)).
  { intros p q P Q. apply Rsqr_incr_0_var; [|apply sqrt_pos]. rewrite Rsqr_sqrt by lra. unfold Rsqr.
    pose proof (sqrt_sqrt p P). pose proof (sqrt_sqrt q ltac:(lra)). pose proof (sqrt_pos p). pose proof (sqrt_le_1_alt p q Q). nra. }
  destruct (Rle_dec 0 b) as [B|B].
  - destruct (Rle_dec a b) as [L|L].
    + rewrite Rabs_minus_sym, (Rabs_minus_sym a). rewrite !Rabs_pos_eq; [now apply K| |]; [lra|]. pose proof (sqrt_le_1_alt a b L). lra.
    + rewrite !Rabs_pos_eq; [apply K; lra| |]; [lra|]. pose proof (sqrt_le_1_alt b a ltac:(lra)). lra.
  - rewrite (sqrt_neg_0 b) by lra. rewrite Rminus_0_r, !Rabs_pos_eq; [|lra|apply sqrt_pos]. apply sqrt_le_1_alt. lra.
Qed.
Lemma quotient_diff a b A B ea eb : Rabs (a - A) <= ea -> Rabs (b - B) <= eb -> eb < Rabs B ->
  b <> 0 /\ Rabs (a / b - A / B) <= (ea * Rabs B + Rabs A * eb) / (Rabs B * (Rabs B - eb)).
Proof.
  intros Ha Hb H. pose proof (Rabs_pos (b - B)) as P0. assert (BP : 0 < Rabs B) by lra.
  assert (b0 : Rabs B - eb <= Rabs b). { replace B with (b - (b - B)) at 1 by ring. pose proof (Rabs_triang b (- (b - B))) as T. rewrite Rabs_Ropp in T. replace (b - (b - B)) with (b + - (b - B)) by ring. lra. }
  assert (bn : b <> 0). { intros ->. rewrite Rabs_R0 in b0. lra. }
  assert (Bn : B <> 0). { intros ->. rewrite Rabs_R0 in BP. lra. }
  split; [exact bn|]. replace (a / b - A / B) with (((a - A) * B - A * (b - B)) / (b * B)) by (field; auto).
  unfold Rdiv at 1. rewrite Rabs_mult, Rabs_inv, Rabs_mult by auto.
  apply Rmult_le_compat; [apply Rabs_pos|apply Rlt_le, Rinv_0_lt_compat; apply Rmult_lt_0_compat; lra| |].
  - unfold Rminus at 1. eapply Rle_trans; [apply Rabs_triang|]. rewrite Rabs_Ropp, !Rabs_mult. pose proof (Rabs_pos A). nra.
  - rewrite (Rmult_comm (Rabs b)). apply Rinv_le; [apply Rmult_lt_0_compat; lra|]. apply Rmult_le_compat_l; lra.
Qed.

Lemma tolerance_pos x e : regular x e -> 0 <= tolerance x e.
Proof.
  induction e as [v|i|a IHa|a IHa|a IHa|a IHa b IHb|a IHa b IHb|a IHa b IHb|a IHa b IHb]; intros [_ R]; cbn [tolerance regular] in *; try lra; auto.
  - pose proof (sqrt_pos (tolerance x a)). pose proof (sqrt_pos (exact x a)). pose proof (rounding_pos (sqrt (exact x a) + sqrt (tolerance x a)) ltac:(lra)). lra.
  - destruct R as [Ra Rb]. specialize (IHa Ra). specialize (IHb Rb). pose proof (Rabs_pos (exact x a + exact x b)).
    pose proof (rounding_pos (Rabs (exact x a + exact x b) + (tolerance x a + tolerance x b)) ltac:(lra)). lra.
  - destruct R as [Ra Rb]. specialize (IHa Ra). specialize (IHb Rb). pose proof (Rabs_pos (exact x a - exact x b)).
    pose proof (rounding_pos (Rabs (exact x a - exact x b) + (tolerance x a + tolerance x b)) ltac:(lra)). lra.
  - destruct R as [Ra Rb]. specialize (IHa Ra). specialize (IHb Rb). pose proof (Rabs_pos (exact x a)). pose proof (Rabs_pos (exact x b)). pose proof (Rabs_pos (exact x a * exact x b)).
    assert (D : 0 <= tolerance x a * Rabs (exact x b) + Rabs (exact x a) * tolerance x b + tolerance x a * tolerance x b) by (repeat apply Rplus_le_le_0_compat; apply Rmult_le_pos; lra).
    pose proof (rounding_pos (Rabs (exact x a * exact x b) + (tolerance x a * Rabs (exact x b) + Rabs (exact x a) * tolerance x b + tolerance x a * tolerance x b)) ltac:(lra)). lra.
  - destruct R as (Ra & Rb & L). specialize (IHa Ra). specialize (IHb Rb). pose proof (Rabs_pos (exact x a)). pose proof (Rabs_pos (exact x b)). pose proof (Rabs_pos (exact x a / exact x b)).
    assert (D : 0 <= (tolerance x a * Rabs (exact x b) + Rabs (exact x a) * tolerance x b) / (Rabs (exact x b) * (Rabs (exact x b) - tolerance x b))).
    { apply Rmult_le_pos; [apply Rplus_le_le_0_compat; apply Rmult_le_pos; lra|]. apply Rlt_le, Rinv_0_lt_compat, Rmult_lt_0_compat; lra. }
    match type of D with 0 <= ?t => pose proof (rounding_pos (Rabs (exact x a / exact x b) + t) ltac:(lra)) end. lra.
Qed.
Lemma tolerance_spec x e v : regular x e -> xeval x e = Ok v -> number v /\ Rabs (val v - exact x e) <= tolerance x e.
Proof.
  revert v. induction e as [w|i|a IHa|a IHa|a IHa|a IHa b IHb|a IHa b IHb|a IHa b IHb|a IHa b IHb]; intros v R E; pose proof R as [(v' & E' & NV) R']; rewrite E in E'; injection E' as <-; (split; [exact NV|]);
    cbn [xeval exact tolerance] in *.
  - injection E as <-. rewrite Rminus_diag_eq, Rabs_R0 by reflexivity. lra.
  - destruct (nth_error x i); [|discriminate]. injection E as <-. rewrite Rminus_diag_eq, Rabs_R0 by reflexivity. lra.
  - destruct (xeval x a) as [u|] eqn:Ea; [|discriminate]. cbn [bind] in E. injection E as <-. destruct (IHa u R' eq_refl) as [Nu Hu].
    unfold fneg, val. rewrite B2R_Bopp. fold (val u). replace (- val u - - exact x a) with (- (val u - exact x a)) by ring. now rewrite Rabs_Ropp.
  - destruct (xeval x a) as [u|] eqn:Ea; [|discriminate]. cbn [bind] in E. injection E as <-. destruct (IHa u R' eq_refl) as [Nu Hu].
    unfold fabs, val. rewrite B2R_Babs. fold (val u). eapply Rle_trans; [apply Rabs_triang_inv2|exact Hu].
  - destruct (xeval x a) as [u|] eqn:Ea; [|discriminate]. cbn [bind] in E. injection E as <-. destruct (IHa u R' eq_refl) as [Nu Hu].
    pose proof (fsqrt_number u NV Nu) as U0. rewrite fsqrt_finite.
    assert (D : Rabs (sqrt (val u) - sqrt (exact x a)) <= sqrt (tolerance x a)).
    { eapply Rle_trans; [now apply sqrt_diff|]. now apply sqrt_le_1_alt. }
    pose proof (rounded _ _ _ D) as G. now rewrite (Rabs_pos_eq (sqrt (exact x a))) in G by apply sqrt_pos.
  - destruct R' as [Ra Rb]. destruct (xeval x a) as [u|] eqn:Ea; [|discriminate]. destruct (xeval x b) as [w|] eqn:Eb; [|discriminate]. cbn [bind] in E. injection E as <-.
    destruct (IHa u Ra eq_refl) as [Nu Hu]. destruct (IHb w Rb eq_refl) as [Nw Hw]. rewrite fadd_finite by assumption. apply rounded.
    replace (val u + val w - (exact x a + exact x b)) with ((val u - exact x a) + (val w - exact x b)) by ring. eapply Rle_trans; [apply Rabs_triang|lra].
  - destruct R' as [Ra Rb]. destruct (xeval x a) as [u|] eqn:Ea; [|discriminate]. destruct (xeval x b) as [w|] eqn:Eb; [|discriminate]. cbn [bind] in E. injection E as <-.
    destruct (IHa u Ra eq_refl) as [Nu Hu]. destruct (IHb w Rb eq_refl) as [Nw Hw]. rewrite fsub_finite by assumption. apply rounded.
    replace (val u - val w - (exact x a - exact x b)) with ((val u - exact x a) + - (val w - exact x b)) by ring. eapply Rle_trans; [apply Rabs_triang|]. rewrite Rabs_Ropp. lra.
  - destruct R' as [Ra Rb]. destruct (xeval x a) as [u|] eqn:Ea; [|discriminate]. destruct (xeval x b) as [w|] eqn:Eb; [|discriminate]. cbn [bind] in E. injection E as <-.
    destruct (IHa u Ra eq_refl) as [Nu Hu]. destruct (IHb w Rb eq_refl) as [Nw Hw]. rewrite fmul_finite by assumption. apply rounded.
    replace (val u * val w - exact x a * exact x b) with ((val u - exact x a) * exact x b + exact x a * (val w - exact x b) + (val u - exact x a) * (val w - exact x b)) by ring.
    eapply Rle_trans; [apply Rabs_triang|]. apply Rplus_le_compat.
    + eapply Rle_trans; [apply Rabs_triang|]. rewrite !Rabs_mult. pose proof (Rabs_pos (exact x a)). pose proof (Rabs_pos (exact x b)). nra.
    + rewrite Rabs_mult. apply Rmult_le_compat; auto using Rabs_pos.
  - destruct R' as (Ra & Rb & L). destruct (xeval x a) as [u|] eqn:Ea; [|discriminate]. destruct (xeval x b) as [w|] eqn:Eb; [|discriminate]. cbn [bind] in E. injection E as <-.
    destruct (IHa u Ra eq_refl) as [Nu Hu]. destruct (IHb w Rb eq_refl) as [Nw Hw]. destruct (quotient_diff _ _ _ _ _ _ Hu Hw L) as [W0 Q].
    destruct (fdiv_finite u w W0 NV) as [_ ->]. now apply rounded.
Qed.

(** NaN propagates. *)
Lemma nan_op e i (x : list float) v : nth_error x i = Some (B754_nan : float) -> mentions i e -> xeval x e = Ok v -> nan_p v = true.
Proof.
  intros H. assert (N : forall w : float, nan_p w = true -> w = B754_nan) by (intros w; destruct w; try discriminate; reflexivity).
  revert v. induction e as [w|j|a IHa|a IHa|a IHa|a IHa b IHb|a IHa b IHb|a IHa b IHb|a IHa b IHb]; intros v M E; cbn [mentions xeval] in *.
  - destruct M.
  - rewrite M, H in E. injection E as <-. reflexivity.
  - destruct (xeval x a) as [u|]; [|discriminate]. cbn [bind] in E. injection E as <-. rewrite (N u (IHa u M eq_refl)). reflexivity.
  - destruct (xeval x a) as [u|]; [|discriminate]. cbn [bind] in E. injection E as <-. rewrite (N u (IHa u M eq_refl)). reflexivity.
  - destruct (xeval x a) as [u|]; [|discriminate]. cbn [bind] in E. injection E as <-. rewrite (N u (IHa u M eq_refl)). reflexivity.
  - destruct (xeval x a) as [u|]; [|discriminate]. destruct (xeval x b) as [w|]; [|discriminate]. cbn [bind] in E. injection E as <-.
    destruct M as [M|M]; [rewrite (N u (IHa u M eq_refl))|rewrite (N w (IHb w M eq_refl))]; [destruct w|destruct u]; reflexivity.
  - destruct (xeval x a) as [u|]; [|discriminate]. destruct (xeval x b) as [w|]; [|discriminate]. cbn [bind] in E. injection E as <-.
    destruct M as [M|M]; [rewrite (N u (IHa u M eq_refl))|rewrite (N w (IHb w M eq_refl))]; [destruct w|destruct u]; reflexivity.
  - destruct (xeval x a) as [u|]; [|discriminate]. destruct (xeval x b) as [w|]; [|discriminate]. cbn [bind] in E. injection E as <-.
    destruct M as [M|M]; [rewrite (N u (IHa u M eq_refl))|rewrite (N w (IHb w M eq_refl))]; [destruct w|destruct u]; reflexivity.
  - destruct (xeval x a) as [u|]; [|discriminate]. destruct (xeval x b) as [w|]; [|discriminate]. cbn [bind] in E. injection E as <-.
    destruct M as [M|M]; [rewrite (N u (IHa u M eq_refl))|rewrite (N w (IHb w M eq_refl))]; [destruct w|destruct u]; reflexivity.
Qed.

Lemma fle0 v : number v -> fle v f0 = true <-> val v <= 0.
Proof.
  intros H. destruct f0_ok as [Z1 Z2]. rewrite (fle_ok v f0 H Z1), Z2. destruct (Rle_bool_spec (val v) 0); split; intros; try lra; try discriminate.
Qed.
(** The sign of a difference of doubles is exact, also when it overflows. *)
Lemma diff_sign a b : number a -> number b -> fle (fsub a b) f0 = true <-> val a <= val b.
Proof.
  intros Ha Hb. destruct (is_finite (fsub a b)) eqn:F.
  - rewrite (fle0 _ F), (fsub_finite a b Ha Hb F). split; intros H.
    + destruct (Rle_lt_dec (val a) (val b)) as [L|L]; [exact L|]. exfalso.
      assert (P : 0 <= rnd (val a - val b)) by (apply rnd_nonneg; lra). assert (Z : rnd (val a - val b) = 0) by lra.
      apply sub_zero in Z; [lra| |]; apply F64_val.
    + rewrite <- rnd_0. apply rnd_mono. lra.
  - pose proof (Bminus_correct 53 1024 prec53 emax1024 mode_NE a b Ha Hb) as B. fold (fsub a b) in B.
    destruct (Rlt_bool _ _) in B; [destruct B as (_ & B & _); congruence|]. destruct B as [B S].
    assert (D : fsub a b = B754_infinity (Bsign a)).
    { destruct (fsub a b) as [s|s| |s m e Hbb]; try discriminate F; cbn in B; [injection B as ->; reflexivity|discriminate B]. }
    rewrite D. assert (SA : forall c : float, number c -> (Bsign c = false -> 0 <= val c) /\ (Bsign c = true -> val c <= 0)).
    { intros c Hc. destruct c as [s|s| |s m e Hbb]; try discriminate; cbn; [split; lra|]. split; intros ->; [apply F2R_ge_0|apply F2R_le_0]; cbn; lia. }
    destruct (SA a Ha) as [A1 A2]. destruct (SA b Hb) as [B1 B2]. 
    destruct (Bsign a) eqn:Sa.
    + assert (Sb : Bsign b = false) by (destruct (Bsign b); [discriminate S|reflexivity]). split; intros _; [|reflexivity]. specialize (A2 eq_refl). specialize (B1 Sb). lra.
    + assert (Sb : Bsign b = true) by (destruct (Bsign b); [reflexivity|discriminate S]). split; [intros H; exfalso; vm_compute in H; discriminate|]. intros L. exfalso. specialize (A1 eq_refl). specialize (B2 Sb).
      assert (Z : val a - val b = 0) by lra.
      pose proof (Bminus_correct 53 1024 prec53 emax1024 mode_NE a b Ha Hb) as B3. rewrite Rlt_bool_true in B3.
      * destruct B3 as (_ & B3 & _). unfold fsub in F. congruence.
      * change (Rabs (rnd (val a - val b)) < bpow radix2 1024). rewrite Z, rnd_0, Rabs_R0. apply bpow_gt_0.
Qed.
Lemma satisfies_spec x : forall es b, satisfies es x = Ok b ->
  List.Forall (fun e => exists v, xeval x e = Ok v) es /\ (b = true <-> List.Forall (fun e => exists v, xeval x e = Ok v /\ fle v f0 = true) es).
Proof.
  induction es as [|e es IH]; intros b; cbn [satisfies].
  - intros H. injection H as <-. split; [constructor|]. split; auto.
  - destruct (xeval x e) as [v|] eqn:E; [|discriminate]. cbn [bind]. destruct (satisfies es x) as [c|] eqn:S; [|discriminate]. cbn [bind]. intros H. injection H as <-.
    destruct (IH c eq_refl) as [A B]. split; [constructor; eauto|]. rewrite andb_true_iff, B. split.
    + intros [F G]. constructor; eauto.
    + intros H. inversion H as [|? ? (v' & E' & F) G]; subst. rewrite E in E'. injection E' as <-. auto.
Qed.
