(** Local penalization in double precision: proofs. *)
From Coq Require Import List ZArith Bool Reals Lra Lia Psatz Permutation.
From Flocq Require Import Core Relative IEEE754.BinarySingleNaN.
From Verif.Model Require Import Py Float FloatStop FloatCons FloatAcq FloatLP AcqR.
From Verif.Spec Require Import FloatSpec FloatStopSpec FloatConsSpec FloatCostSpec FloatAcqSpec FloatAccSpec FloatLPSpec.
From Verif.Proof Require Import FloatP FloatStopP FloatConsP FloatCostP GaussP AcqP LPRank FloatAcqP FloatAccA FloatAccP.
Import ListNotations.
Local Open Scope R_scope.

(** ---- sums of what is not positive *)
Definition np (x : float) : Prop := at_most 0 x.
Lemma np_neg : forall x, np x -> nn (fneg x).
Proof. intros x [->|[N V]]; [right; reflexivity|]. destruct (neg_num x N) as [A B]. left. split; [exact A | rewrite B; lra]. Qed.
Lemma np_nan : forall x, np x -> nan_p x = false.
Proof. intros x [->|[N V]]; [reflexivity | now apply not_nan]. Qed.
Lemma sign_neg : forall x, number x -> val x < 0 -> Bsign x = true.
Proof. intros x N V. destruct (neg_form x N V) as (m & e & b & ->). reflexivity. Qed.
Lemma overflowed : forall x y, number x -> number y -> bpow radix2 1024 <= Rabs (rnd (val x + val y)) ->
  fadd x y = B754_infinity (Bsign x) /\ Bsign x = Bsign y.
Proof.
  intros x y Nx Ny H. pose proof (Bplus_correct 53 1024 prec53 emax1024 mode_NE x y Nx Ny) as B.
  change (round radix2 (SpecFloat.fexp 53 1024) (round_mode mode_NE) (B2R x + B2R y)) with (rnd (val x + val y)) in B. rewrite Rlt_bool_false in B by exact H.
  destruct B as [B1 B2]. split; [|exact B2]. unfold fadd, binary_overflow in *. cbn in B1. destruct (Bplus mode_NE x y) as [s|s| |s m e Hb]; try discriminate B1. now injection B1 as ->.
Qed.
Lemma np_add : forall x y, np x -> np y -> np (fadd x y).
Proof.
  intros x y [->|[Nx Vx]] Hy.
  - destruct Hy as [->|[Ny _]]; left; [reflexivity|]. destruct y; try discriminate; reflexivity.
  - destruct Hy as [->|[Ny Vy]]; [left; destruct x; try discriminate; reflexivity|].
    destruct (Rlt_le_dec (Rabs (rnd (val x + val y))) (bpow radix2 1024)) as [L|G].
    + destruct (fadd_ok x y Nx Ny L) as [N V]. right. split; [exact N|]. rewrite V. rewrite <- rnd_0. apply rnd_mono. lra.
    + destruct (overflowed x y Nx Ny G) as [E S]. left. rewrite E. unfold minus_inf. f_equal. destruct Vx as [Vx|Vx]; [now apply sign_neg|].
      destruct Vy as [Vy|Vy]; [rewrite S; now apply sign_neg|]. exfalso. rewrite Vx, Vy, Rplus_0_l, rnd_0, Rabs_R0 in G. pose proof (bpow_gt_0 radix2 1024). lra.
Qed.
Lemma np_sum : forall l x, added l x -> (forall y, In y l -> np y) -> np x.
Proof.
  intros l x H. induction H as [|x|l r x y Hl Hr H1 IH1 H2 IH2|l r x P H IH]; intros A.
  - right. destruct f0_ok as [Z V]. split; [exact Z | rewrite V; lra].
  - apply A. now left.
  - apply np_add; [apply IH1 | apply IH2]; intros z Hz; apply A, in_or_app; auto.
  - apply IH. intros z Hz. apply A. now apply (Permutation_in _ P).
Qed.
(** adding what is not negative to a number or +inf *)
Definition up (x : float) : Prop := number x \/ x = plus_inf.
Lemma up_nan : forall x, up x -> nan_p x = false.
Proof. intros x [N| ->]; [now apply not_nan | reflexivity]. Qed.
Lemma up_add : forall v p, up v -> nn p -> up (fadd v p) /\ flt (fadd v p) v = false /\ (v = plus_inf -> fadd v p = plus_inf).
Proof.
  intros v p [N| ->] Hp.
  - destruct Hp as [[Np P]| ->].
    + assert (M : val v <= rnd (val v + val p)) by (rewrite <- (rnd_F (val v)) at 1 by apply F64_val; apply rnd_mono; lra).
      split; [|split; [|intros ->; discriminate]].
      * destruct (Rlt_le_dec (Rabs (rnd (val v + val p))) (bpow radix2 1024)) as [L|G]; [left; now apply fadd_ok|]. right. destruct (overflowed v p N Np G) as [E S]. rewrite E, S.
        unfold plus_inf. f_equal. destruct P as [P|P]; [now apply sign_pos|]. exfalso. rewrite <- P, Rplus_0_r, rnd_F in G by apply F64_val. pose proof (val_lt v). lra.
      * destruct (Rlt_le_dec (Rabs (rnd (val v + val p))) (bpow radix2 1024)) as [L|G].
        -- destruct (fadd_ok v p N Np L) as [A V]. rewrite (flt_ok _ _ A N), V. apply Rlt_bool_false. exact M.
        -- destruct (overflowed v p N Np G) as [E S]. rewrite E, S. replace (Bsign p) with false; [destruct v; try discriminate; reflexivity|]. symmetry.
           destruct P as [P|P]; [now apply sign_pos|]. exfalso. rewrite <- P, Rplus_0_r, rnd_F in G by apply F64_val. pose proof (val_lt v). lra.
    + replace (fadd v (B754_infinity false)) with plus_inf by (destruct v; try discriminate; reflexivity). split; [now right|]. split; [|auto]. destruct v; try discriminate; reflexivity.
  - replace (fadd plus_inf p) with plus_inf by (destruct Hp as [[Np P]| ->]; [destruct p; try discriminate; reflexivity | reflexivity]).
    split; [now right|]. split; [reflexivity | auto].
Qed.

(** ---- the penalties *)
Lemma hammer_np : forall B total x h, lp_like B -> (forall l, added l (total l)) -> numbers x -> penaliser h -> np (hammer_f B total x h).
Proof.
  intros B total x [x0 [r s]] HB Ht Hx (H0 & Hr & Hs & Ps). cbn [fst snd] in *. unfold hammer_f. cbn [fst snd]. apply (logcdf_neg B HB).
  destruct (pos_form s Hs Ps) as (m & e & b & Es). assert (I : forall b, fdiv (B754_infinity b) s = B754_infinity b) by (intros b'; rewrite Es; destruct b'; reflexivity).
  destruct (distance_nn total x x0 Ht Hx H0) as [[N _]|E].
  - destruct (three _ (sub_nan _ r N Hr)) as [K|[K|K]]; [apply div_nn; [exact K | lra] | |]; rewrite K; unfold plus_inf, minus_inf; now rewrite I.
  - rewrite E. replace (fsub (B754_infinity false) r) with plus_inf by (destruct r; try discriminate; reflexivity). unfold plus_inf. now rewrite I.
Qed.
Lemma penalties_nn : forall B total x hs, lp_like B -> (forall l, added l (total l)) -> numbers x -> (forall h, In h hs -> penaliser h) ->
  nn (fneg (total (map (hammer_f B total x) hs))).
Proof.
  intros B total x hs HB Ht Hx Hh. apply np_neg. apply (np_sum _ _ (Ht _)). intros y Hy. apply in_map_iff in Hy as (h & <- & Hin). apply hammer_np; auto.
Qed.

(** ---- every batch point counts *)
Definition lower (a b : float) : Prop := a = minus_inf \/ (number a /\ number b /\ val a <= val b).
Lemma lower_trans : forall a b c, lower a b -> lower b c -> lower a c.
Proof. intros a b c [->|(A1 & A2 & A3)]; [left; reflexivity|]. intros [->|(B1 & B2 & B3)]; [discriminate A2|]. right. repeat split; auto; lra. Qed.
Lemma lower_refl : forall a, np a -> lower a a.
Proof. intros a [->|[N V]]; [left; reflexivity | right; repeat split; auto; lra]. Qed.
Lemma lower_add : forall x y, np x -> np y -> lower (fadd x y) x /\ lower (fadd x y) y.
Proof.
  intros x y Hx Hy. destruct (np_add x y Hx Hy) as [E|[N V]]; [rewrite E; split; left; reflexivity|].
  destruct Hx as [->|[Nx Vx]]; [exfalso; destruct Hy as [->|[Ny _]]; [discriminate N | destruct y; discriminate]|].
  destruct Hy as [->|[Ny Vy]]; [exfalso; destruct x; discriminate|]. pose proof (fadd_finite x y Nx Ny N) as E.
  split; right; (split; [exact N|]); (split; [assumption|]); rewrite E; [rewrite <- (rnd_F (val x)) at 2 by apply F64_val | rewrite <- (rnd_F (val y)) at 2 by apply F64_val]; apply rnd_mono; lra.
Qed.
Lemma sum_lower : forall l x, added l x -> (forall y, In y l -> np y) -> forall y, In y l -> lower x y.
Proof.
  intros l x H. induction H as [|x|l r x y Hl Hr H1 IH1 H2 IH2|l r x P H IH]; intros A z Hz.
  - destruct Hz.
  - destruct Hz as [<-|[]]. apply lower_refl, A. now left.
  - assert (Ax : forall w, In w l -> np w) by (intros w Hw; apply A, in_or_app; auto). assert (Ay : forall w, In w r -> np w) by (intros w Hw; apply A, in_or_app; auto).
    destruct (lower_add x y (np_sum _ _ H1 Ax) (np_sum _ _ H2 Ay)) as [L1 L2]. apply in_app_or in Hz as [Hz|Hz]; [apply (lower_trans _ _ _ L1) | apply (lower_trans _ _ _ L2)]; auto.
  - apply IH; [intros w Hw; apply A; now apply (Permutation_in _ P) | apply (Permutation_in _ (Permutation_sym P)); exact Hz].
Qed.
Lemma lower_penalised : forall v s y, up v -> np s -> np y -> lower s y -> flt (fadd v (fneg s)) (fadd v (fneg y)) = false.
Proof.
  intros v s y Hv Hs Hy L. destruct (up_add v _ Hv (np_neg s Hs)) as [[N|E] [_ I]]; [|rewrite E; destruct (fadd v (fneg y)) as [[|]|[|]| |[|] m e b]; reflexivity].
  destruct L as [->|(Ns & Ny & L)]; [exfalso; destruct Hv as [Nv| ->]; [destruct v; discriminate | discriminate N]|].
  destruct Hv as [Nv| ->]; [|rewrite (I eq_refl) in N; discriminate N].
  destruct (neg_num s Ns) as [N1 V1]. destruct (neg_num y Ny) as [N2 V2]. pose proof (fadd_finite v _ Nv N1 N) as E. rewrite V1 in E.
  assert (M : rnd (val v + - val y) <= rnd (val v + - val s)) by (apply rnd_mono; lra).
  destruct (Rlt_le_dec (Rabs (rnd (val v + - val y))) (bpow radix2 1024)) as [B|B].
  - destruct (fadd_ok v (fneg y) Nv N2) as [N3 V3]; [rewrite V2; exact B|]. rewrite (flt_ok _ _ N N3), V3, V2, E. now apply Rlt_bool_false.
  - exfalso. assert (P : val y <= 0) by (destruct Hy as [->|[_ P]]; [discriminate Ny | exact P]).
    assert (K : val v <= rnd (val v + - val y)) by (rewrite <- (rnd_F (val v)) at 1 by apply F64_val; apply rnd_mono; lra).
    pose proof (val_lt v) as Bv. apply Rabs_def2 in Bv. pose proof (val_lt (fadd v (fneg s))) as Bs. rewrite E in Bs. apply Rabs_def2 in Bs.
    assert (B' : bpow radix2 1024 <= rnd (val v + - val y)) by (revert B; unfold Rabs; destruct (Rcase_abs _); lra). lra.
Qed.

(** ---- the transformations *)
Lemma forty_ok : number forty /\ val forty = 40.
Proof. apply (of_Z_ok 40). cbn. lia. Qed.
Lemma fle_true : forall x y, number x -> number y -> fle x y = true -> val x <= val y.
Proof. intros x y Nx Ny. rewrite fle_ok by assumption. intros H. destruct (Rle_bool_spec (val x) (val y)); [assumption | discriminate]. Qed.
Lemma fle_false : forall x y, number x -> number y -> fle x y = false -> val y < val x.
Proof. intros x y Nx Ny. rewrite fle_ok by assumption. intros H. destruct (Rle_bool_spec (val x) (val y)); [discriminate | assumption]. Qed.
Lemma softplus_low : forall B f, number f -> val f < 40 -> lp_map_f B TSoftplus f = log_lp B (log1p_lp B (exp_lp B f)).
Proof.
  intros B f N V. destruct forty_ok as [N4 V4]. cbn [lp_map_f]. rewrite (fle_ok _ _ N4 N), V4, Rle_bool_false, (flt_ok _ _ N N4), V4, Rlt_bool_true by assumption. reflexivity.
Qed.
Lemma softplus_high : forall B f, number f -> 40 <= val f -> lp_map_f B TSoftplus f = log_lp B f.
Proof. intros B f N V. destruct forty_ok as [N4 V4]. cbn [lp_map_f]. rewrite (fle_ok _ _ N4 N), V4, Rle_bool_true by assumption. reflexivity. Qed.
Lemma e50_ok : number e50_f /\ val e50_f = 8424983333484575 * bpow radix2 (-219).
Proof. apply lit_ok; [cbn; lia | lia]. Qed.
Lemma e50_small : 0 < val e50_f <= 1.
Proof.
  destruct e50_ok as [N V]. rewrite V. pose proof (bpow_gt_0 radix2 (-219)) as P. split; [apply Rmult_lt_0_compat; lra|].
  apply Rle_trans with (bpow radix2 53 * bpow radix2 (-219)); [apply Rmult_le_compat_r; [lra|]; change (bpow radix2 53) with (IZR (2 ^ 53)); apply IZR_le; cbn; lia|].
  rewrite <- bpow_plus. change 1 with (bpow radix2 0). apply bpow_le. lia.
Qed.
Lemma nearest_of : forall x y, F64 y -> Rabs (rnd x - x) <= Rabs (y - x).
Proof.
  intros x y Fy. pose proof (round_N_pt radix2 (FLT_exp (-1074) 53) (fun x => negb (Z.even x)) x) as [_ H]. exact (H y Fy).
Qed.
Lemma plus_tiny : forall f, number f -> 0 <= val f -> number (fadd f e50_f) /\ val f <= val (fadd f e50_f) /\ 0 < val (fadd f e50_f).
Proof.
  intros f N P. destruct e50_ok as [N5 _]. pose proof e50_small as S. set (t := val e50_f) in *.
  assert (L : val f <= rnd (val f + t)) by (rewrite <- (rnd_F (val f)) at 1 by apply F64_val; apply rnd_mono; lra).
  assert (Lt : t <= rnd (val f + t)) by (rewrite <- (rnd_F t) at 1 by apply F64_val; apply rnd_mono; lra).
  assert (H : Rabs (rnd (val f + t)) < bpow radix2 1024).
  { rewrite Rabs_pos_eq by lra. pose proof (nearest_of (val f + t) (val f) (F64_val f)) as K. replace (val f - (val f + t)) with (- t) in K by ring. rewrite Rabs_Ropp, (Rabs_pos_eq t) in K by lra.
    apply Rabs_le_inv in K. pose proof (abs_B2R_le_emax_minus_prec 53 1024 prec53 f) as M. apply Rabs_le_inv in M. fold (val f) in M.
    assert (4 <= bpow radix2 (1024 - 53)) by (change 4 with (bpow radix2 2); apply bpow_le; lia). lra. }
  destruct (fadd_ok f e50_f N N5 H) as [A V]. fold t in V. split; [exact A|]. rewrite V. split; [exact L | lra].
Qed.
Lemma map_up : forall B t u, lp_like B -> transformable t u -> up (fneg (lp_map_f B t (fneg u))).
Proof.
  intros B t u HB [N T]. destruct (neg_num u N) as [Nf Vf].
  assert (K : forall x, number x -> 0 <= val x -> up (fneg (log_lp B x))).
  { intros x Nx Px. destruct (log_ok B HB x Nx) as (L1 & L2 & _). destruct Px as [Px|Px].
    - left. apply neg_num. now apply L1.
    - right. rewrite L2 by now symmetry. reflexivity. }
  destruct t; cbn in T.
  - cbn [lp_map_f]. destruct (plus_tiny (fneg u) Nf ltac:(lra)) as (A & _ & C). apply K; [exact A | lra].
  - destruct (Rlt_le_dec (val (fneg u)) 40) as [L|G].
    + rewrite softplus_low by assumption. destruct (exp_below B HB _ Nf L) as [E1 E2]. destruct (log1p_pos B HB _ E1 E2) as [F1 F2]. now apply K.
    + rewrite softplus_high by assumption. apply K; [exact Nf | lra].
  - cbn [lp_map_f]. left. now apply neg_num.
Qed.
Theorem penalized_up : forall B total t u hs x, lp_like B -> (forall l, added l (total l)) -> transformable t u -> numbers x -> (forall h, In h hs -> penaliser h) ->
  up (penalized_f B total t u None x) /\ up (penalized_f B total t u (Some hs) x) /\
  flt (penalized_f B total t u (Some hs) x) (penalized_f B total t u None x) = false.
Proof.
  intros B total t u hs x HB Ht T Hx Hh. unfold penalized_f. cbn zeta. pose proof (map_up B t u HB T) as U. destruct (up_add _ _ U (penalties_nn B total x hs HB Ht Hx Hh)) as (A & C & _). auto.
Qed.
Theorem lp_plateau : forall B total u hs x, lp_like B -> (forall l, added l (total l)) -> number u -> 1076 <= val u -> numbers x -> (forall h, In h hs -> penaliser h) ->
  penalized_f B total TSoftplus u None x = plus_inf /\ penalized_f B total TSoftplus u (Some hs) x = plus_inf.
Proof.
  intros B total u hs x HB Ht N V Hx Hh. destruct (neg_num u N) as [Nf Vf]. unfold penalized_f. cbn zeta. rewrite softplus_low by (try assumption; lra).
  destruct (exp_below B HB (fneg u) Nf ltac:(lra)) as [E1 _]. pose proof (exp_vanishes B HB (fneg u) Nf ltac:(lra)) as E2.
  destruct (log1p_pos B HB _ E1 ltac:(lra)) as [F1 _]. pose proof (log1p_zero B HB _ E1 E2) as F2. destruct (log_ok B HB _ F1) as (_ & L & _). rewrite (L F2).
  change (fneg (B754_infinity true)) with plus_inf. split; [reflexivity|]. apply up_add; [now right | now apply penalties_nn | reflexivity].
Qed.

(** ---- correctly rounded functions *)
Lemma ln_le : forall a b, 0 < a -> a <= b -> ln a <= ln b.
Proof. intros a b A [H| ->]; [left; now apply ln_increasing | right; reflexivity]. Qed.
Lemma lp_rounded_like : forall B, lp_rounded B -> lp_like B.
Proof.
  intros B H. change nearest with rnd in *. split.
  - intros x N V. destruct (r_exp B H x N V) as [A ->]. split; [exact A|]. apply rnd_nonneg. left. apply exp_pos.
  - intros x N V. destruct (r_exp B H x N ltac:(lra)) as [A ->]. apply rnd_tiny. split; [left; apply exp_pos | now apply exp_tiny].
  - intros x N V. destruct (r_log1p B H x N V) as [A ->]. split; [exact A|]. apply rnd_nonneg. rewrite <- ln_1. apply ln_le; lra.
  - intros x N V. destruct (r_log1p B H x N ltac:(lra)) as [A ->]. rewrite V, Rplus_0_r, ln_1. apply rnd_0.
  - intros x N. split; [intros P; now apply (r_log B H)|]. split; [now apply (r_log0 B H) | now apply (r_lognan B H)].
  - intros x Nx. destruct (three x Nx) as [N|[->| ->]].
    + destruct (Rlt_le_dec (Rabs (rnd (ln (cdf (val x))))) (bpow radix2 1024)) as [L|G].
      * destruct (r_logcdf B H x N L) as [A V]. right. split; [exact A|]. change nearest with rnd in V. rewrite V, <- rnd_0. apply rnd_mono. rewrite <- ln_1. apply ln_le; [apply cdf_pos | left; apply cdf_lt_1].
      * left. now apply (r_logcdf_big B H).
    + right. destruct (r_logcdf_p B H) as [A V]. split; [exact A | rewrite V; lra].
    + left. apply (r_logcdf_m B H).
Qed.
(** doubles from 2^e on are multiples of 2^(e-52) *)
Lemma multiple : forall x e, (-1000 <= e)%Z -> F64 x -> bpow radix2 e <= Rabs x -> exists k, x = IZR k * bpow radix2 (e - 52).
Proof.
  intros x e He Fx H. assert (X0 : x <> 0) by (intros ->; rewrite Rabs_R0 in H; pose proof (bpow_gt_0 radix2 e); lra).
  pose proof (mag_ge_bpow radix2 x (e + 1)) as M. replace (e + 1 - 1)%Z with e in M by lia. specialize (M H).
  assert (C : (e - 52 <= cexp radix2 (FLT_exp (-1074) 53) x)%Z) by (unfold cexp, FLT_exp; lia).
  unfold F64 in Fx. unfold generic_format in Fx. set (c := cexp radix2 (FLT_exp (-1074) 53) x) in *. set (m := Ztrunc (scaled_mantissa radix2 (FLT_exp (-1074) 53) x)) in *.
  exists (m * Zpower radix2 (c - (e - 52)))%Z. rewrite Fx at 1. unfold F2R. cbn [Fnum Fexp]. rewrite mult_IZR, IZR_Zpower by lia. rewrite Rmult_assoc, <- bpow_plus. do 2 f_equal. lia.
Qed.
Lemma below_40 : forall x, F64 x -> x < 40 -> x <= 40 - bpow radix2 (-47).
Proof.
  intros x Fx H. assert (K : bpow radix2 (-47) <= 1) by (change 1 with (bpow radix2 0); apply bpow_le; lia). destruct (Rle_lt_dec x 39) as [L|L]; [lra|].
  destruct (multiple x 5 ltac:(lia) Fx) as [k Ek]; [rewrite Rabs_pos_eq by lra; change (bpow radix2 5) with 32; lra|]. change (5 - 52)%Z with (-47)%Z in Ek.
  pose proof (bpow_gt_0 radix2 (-47)) as P. assert (E4 : 40 = IZR (40 * 2 ^ 47) * bpow radix2 (-47)) by (change (bpow radix2 (-47)) with (/ IZR (2 ^ 47)); rewrite mult_IZR; field; apply not_0_IZR; discriminate).
  assert (L' : IZR k < IZR (40 * 2 ^ 47)) by (apply Rmult_lt_reg_r with (bpow radix2 (-47)); lra). apply lt_IZR in L'.
  assert (L2 : IZR k + 1 <= IZR (40 * 2 ^ 47)) by (rewrite <- plus_IZR; apply IZR_le; lia). nra.
Qed.
Lemma softplus_40 : forall f, F64 f -> f < 40 -> ln (1 + rnd (exp f)) <= 40.
Proof.
  assert (Main : forall f, F64 f -> 39 <= f < 40 -> ln (1 + rnd (exp f)) <= 40).
  { intros f Ff [L H]. pose proof (below_40 f Ff H) as B. destruct (tail f L) as [_ T]. pose proof (exp_pos f) as P. pose proof ee_small as E. pose proof et_small as T'.
    assert (R : rnd (exp f) <= exp f * (1 + 2 * ee)).
    { assert (K : Rabs (rnd (exp f) - exp f) <= ee * exp f + et) by (apply rerr; rewrite Rabs_pos_eq; lra). apply Rabs_le_inv in K.
      assert (1 <= exp f) by (rewrite <- exp_0; left; apply exp_increasing; lra). assert (et <= ee * exp f) by (pose proof et_ee; nra). lra. }
    apply Rle_trans with (ln ((1 + exp f) * (1 + 2 * ee))).
    - apply ln_le; [pose proof (rnd_nonneg (exp f) ltac:(lra)); lra | nra].
    - rewrite ln_mult by lra. rewrite low_split. pose proof (ln_1p (2 * ee) ltac:(lra)) as Z. change (bpow radix2 (-47)) with (/ 140737488355328) in B. unfold ee in *. lra. }
  intros f Ff H. destruct (Rle_lt_dec 39 f) as [L|L]; [apply Main; auto|]. apply Rle_trans with (ln (1 + rnd (exp 39))).
  - pose proof (rnd_nonneg (exp f) ltac:(left; apply exp_pos)). apply ln_le; [lra|]. apply Rplus_le_compat_l, rnd_mono. left. now apply exp_increasing.
  - apply Main; [apply F64_IZR; cbn; lia | lra].
Qed.
Lemma log_order : forall B x y, lp_rounded B -> number x -> number y -> 0 <= val x -> val x <= val y -> flt (log_lp B y) (log_lp B x) = false.
Proof.
  intros B x y H Nx Ny P V. destruct P as [P|P].
  - destruct (r_log B H x Nx P) as [A1 A2]. destruct (r_log B H y Ny ltac:(lra)) as [C1 C2]. rewrite (flt_ok _ _ C1 A1). apply Rlt_bool_false. rewrite A2, C2. apply rnd_mono. now apply ln_le.
  - rewrite (r_log0 B H x Nx) by now symmetry. destruct (log_lp B y) as [s|[|]| |s m e b]; reflexivity.
Qed.
Theorem transform_order : forall B t f g, lp_rounded B -> number f -> number g -> (t = TNone -> 0 <= val f) -> val f <= val g -> flt (lp_map_f B t g) (lp_map_f B t f) = false.
Proof.
  intros B t f g H Nf Ng T V. destruct t.
  - cbn [lp_map_f]. destruct (plus_tiny f Nf (T eq_refl)) as (A1 & A2 & A3). specialize (T eq_refl). destruct (plus_tiny g Ng ltac:(lra)) as (C1 & C2 & C3). destruct e50_ok as [N5 _].
    apply log_order; auto; [lra|]. rewrite (fadd_finite _ _ Nf N5 A1), (fadd_finite _ _ Ng N5 C1). apply rnd_mono. lra.
  - destruct (Rlt_le_dec (val g) 40) as [L|G].
    + rewrite !softplus_low by (try assumption; lra). destruct (r_exp B H f Nf ltac:(lra)) as [E1 E2]. destruct (r_exp B H g Ng L) as [E3 E4]. change nearest with rnd in *.
      assert (P1 : 0 <= val (exp_lp B f)) by (rewrite E2; apply rnd_nonneg; left; apply exp_pos). assert (P2 : 0 <= val (exp_lp B g)) by (rewrite E4; apply rnd_nonneg; left; apply exp_pos).
      destruct (r_log1p B H _ E1 P1) as [F1 F2]. destruct (r_log1p B H _ E3 P2) as [F3 F4]. change nearest with rnd in *.
      apply log_order; auto; [rewrite F2; apply rnd_nonneg; rewrite <- ln_1; apply ln_le; lra|]. rewrite F2, F4. apply rnd_mono, ln_le; [lra|]. apply Rplus_le_compat_l. rewrite E2, E4. apply rnd_mono.
      destruct V as [V|V]; [left; now apply exp_increasing | rewrite V; lra].
    + rewrite (softplus_high B g Ng G). destruct (Rlt_le_dec (val f) 40) as [L|G']; [|rewrite (softplus_high B f Nf G'); apply log_order; auto; lra].
      rewrite (softplus_low B f Nf L). destruct (r_exp B H f Nf L) as [E1 E2]. change nearest with rnd in *.
      assert (P1 : 0 <= val (exp_lp B f)) by (rewrite E2; apply rnd_nonneg; left; apply exp_pos). destruct (r_log1p B H _ E1 P1) as [F1 F2]. change nearest with rnd in *.
      apply log_order; auto; [rewrite F2; apply rnd_nonneg; rewrite <- ln_1; apply ln_le; lra|]. apply Rle_trans with 40; [|exact G]. rewrite F2, E2.
      rewrite <- (rnd_F 40) by (apply F64_IZR; cbn; lia). apply rnd_mono. apply softplus_40; [apply F64_val | exact L].
  - cbn [lp_map_f]. rewrite (flt_ok _ _ Ng Nf). now apply Rlt_bool_false.
Qed.

(** ---- radius and width *)
Lemma e16_ok : number e16_f /\ bpow radix2 (-54) <= val e16_f <= 1.
Proof.
  destruct (lit_ok 8112963841460668 (-106)) as [N V]; [cbn; lia | lia|]. split; [exact N|]. unfold e16_f. rewrite V. pose proof (bpow_gt_0 radix2 (-106)) as P. split.
  - change (-54)%Z with (52 + -106)%Z. rewrite (bpow_plus radix2 52 (-106)). apply Rmult_le_compat_r; [lra|]. change (bpow radix2 52) with (IZR (2 ^ 52)). apply IZR_le. cbn. lia.
  - apply Rle_trans with (bpow radix2 53 * bpow radix2 (-106)); [apply Rmult_le_compat_r; [lra|]; change (bpow radix2 53) with (IZR (2 ^ 53)); apply IZR_le; cbn; lia|].
    rewrite <- bpow_plus. change 1 with (bpow radix2 0). apply bpow_le. lia.
Qed.
Lemma e7_ok : number e7_f /\ bpow radix2 (-24) <= val e7_f <= 1.
Proof.
  destruct (lit_ok 7555786372591432 (-76)) as [N V]; [cbn; lia | lia|]. split; [exact N|]. unfold e7_f. rewrite V. pose proof (bpow_gt_0 radix2 (-76)) as P. split.
  - change (-24)%Z with (52 + -76)%Z. rewrite (bpow_plus radix2 52 (-76)). apply Rmult_le_compat_r; [lra|]. change (bpow radix2 52) with (IZR (2 ^ 52)). apply IZR_le. cbn. lia.
  - apply Rle_trans with (bpow radix2 53 * bpow radix2 (-76)); [apply Rmult_le_compat_r; [lra|]; change (bpow radix2 53) with (IZR (2 ^ 53)); apply IZR_le; cbn; lia|].
    rewrite <- bpow_plus. change 1 with (bpow radix2 0). apply bpow_le. lia.
Qed.
Lemma L_ok : forall g, moderate g -> moderate (estimate_L_f g) /\ bpow radix2 (-24) <= val (estimate_L_f g).
Proof.
  intros g [N Bd]. destruct (neg_num g N) as [Nf Vf]. unfold estimate_L_f. cbn zeta. destruct e7_ok as [N7 [L7 H7]]. destruct (flt (fneg g) e7_f) eqn:E.
  - destruct (of_Z_ok 10 ltac:(cbn; lia)) as [A V]. split; [split; [exact A|]; rewrite V, Rabs_pos_eq by lra; apply Rle_trans with (bpow radix2 4); [change (bpow radix2 4) with 16; lra | apply bpow_le; lia]|].
    rewrite V. apply Rle_trans with (bpow radix2 0); [apply bpow_le; lia | change (bpow radix2 0) with 1; lra].
  - apply (flt_false _ _ Nf N7) in E. split; [split; [exact Nf|]; rewrite Vf, Rabs_Ropp; exact Bd | lra].
Qed.
Lemma radii : forall m pred Min g x0, moderate m -> number pred -> moderate Min -> moderate g -> numbers x0 ->
  penaliser (x0, precompute_f m pred (estimate_L_f g) Min).
Proof.
  intros m pred Min g x0 [Nm Bm] Np [NM BM] Hg H0. destruct (L_ok g Hg) as [[NL BL] LL]. set (L := estimate_L_f g) in *. split; [exact H0|]. unfold precompute_f. cbn [fst snd].
  assert (PL : 0 < val L) by (pose proof (bpow_gt_0 radix2 (-24)); lra). pose proof ee_small as E. pose proof et_small as T. pose proof et_ee as T'.
  assert (K0 : 4 * bpow radix2 900 = bpow radix2 902) by (change 902%Z with (2 + 900)%Z; rewrite (bpow_plus radix2 2 900); change (bpow radix2 2) with 4; ring).
  assert (K1 : 1 <= bpow radix2 900) by (change 1 with (bpow radix2 0); apply bpow_le; lia). assert (K2 : bpow radix2 902 <= bpow radix2 1000) by (apply bpow_le; lia).
  destruct (fsub_mod m Min (2 * bpow radix2 900) Nm NM ltac:(lra) ltac:(lra)) as [Ns Es]. pose proof (near_abs _ _ _ Es) as A.
  assert (A' : Rabs (val (fsub m Min)) <= bpow radix2 902).
  { assert (Rabs (val m - val Min) <= 2 * bpow radix2 900) by (eapply Rle_trans; [apply Rabs_triang|]; rewrite Rabs_Ropp; lra). assert (ee * (2 * bpow radix2 900) <= 1 * bpow radix2 900) by nra. lra. }
  split.
  - refine (proj1 (fdiv_mod _ _ (bpow radix2 930) Ns PL _ _)); [|apply bpow_le; lia]. apply div_le; [exact PL|]. apply Rle_trans with (bpow radix2 930 * bpow radix2 (-24)); [rewrite <- bpow_plus; eapply Rle_trans; [exact A' | apply bpow_le; lia]|].
    apply Rmult_le_compat_l; [apply bpow_ge_0 | exact LL].
  - destruct e16_ok as [N16 [L16 H16]]. set (p := if flt pred e16_f then e16_f else pred).
    assert (Pp : number p /\ bpow radix2 (-54) <= val p).
    { unfold p. destruct (flt pred e16_f) eqn:F; [split; [exact N16 | exact L16]|]. split; [exact Np|]. apply (flt_false _ _ Np N16) in F. lra. }
    destruct Pp as [N1 L1]. assert (P1 : 0 < val p) by (pose proof (bpow_gt_0 radix2 (-54)); lra).
    assert (Ns1 : number (fsqrt p)) by (destruct (nn_sqrt p) as [[[A1 _]|A1] _]; [left; split; [exact N1 | lra] | exact A1 | exfalso; destruct (pos_form p N1 P1) as (mm & e & b & Ep); rewrite Ep in A1; apply (f_equal is_finite) in A1; revert A1; unfold fsqrt; rewrite (proj1 (proj2 (Bsqrt_correct 53 1024 prec53 emax1024 mode_NE _))); discriminate]).
    assert (V1 : val (fsqrt p) = rnd (sqrt (val p))) by apply fsqrt_finite.
    assert (Lo : bpow radix2 (-27) <= val (fsqrt p)).
    { rewrite V1, <- (rnd_F (bpow radix2 (-27))) by (apply F64_bpow; lia). apply rnd_mono. rewrite <- (sqrt_Rsqr (bpow radix2 (-27))) by apply bpow_ge_0. apply sqrt_le_1_alt. unfold Rsqr. rewrite <- bpow_plus. exact L1. }
    assert (Hi : val (fsqrt p) <= bpow radix2 512).
    { rewrite V1, <- (rnd_F (bpow radix2 512)) by (apply F64_bpow; lia). apply rnd_mono. rewrite <- (sqrt_Rsqr (bpow radix2 512)) by apply bpow_ge_0. apply sqrt_le_1_alt. unfold Rsqr. rewrite <- bpow_plus. pose proof (val_lt p) as V. apply Rabs_def2 in V. change (512 + 512)%Z with 1024%Z. lra. }
    assert (Q1 : val (fsqrt p) / val L <= bpow radix2 540).
    { apply div_le; [exact PL|]. apply Rle_trans with (bpow radix2 540 * bpow radix2 (-24)); [rewrite <- bpow_plus; eapply Rle_trans; [exact Hi | apply bpow_le; lia]|]. apply Rmult_le_compat_l; [apply bpow_ge_0 | exact LL]. }
    assert (Q2 : bpow radix2 (-930) <= val (fsqrt p) / val L).
    { apply le_div; [exact PL|]. apply Rle_trans with (bpow radix2 (-930) * bpow radix2 900); [apply Rmult_le_compat_l; [apply bpow_ge_0|]; pose proof (Rle_abs (val L)); lra|]. rewrite <- bpow_plus. eapply Rle_trans; [|exact Lo]. apply bpow_le. lia. }
    pose proof (bpow_gt_0 radix2 (-930)) as B9. destruct (fdiv_ok (fsqrt p) L Ns1 ltac:(lra)) as [N2 V2].
    { apply in_range. rewrite Rabs_pos_eq by lra. eapply Rle_trans; [exact Q1 | apply bpow_le; lia]. }
    split; [exact N2|]. rewrite V2. apply Rlt_le_trans with (bpow radix2 (-930)); [exact B9|]. rewrite <- (rnd_F (bpow radix2 (-930))) by (apply F64_bpow; lia). now apply rnd_mono.
Qed.

(** ---- at a batch point *)
Lemma at_center : forall total x0 r s, (forall l, added l (total l)) -> numbers x0 -> number r -> number s -> 0 < val s -> Rabs (rnd (- val r / val s)) < bpow radix2 1024 ->
  number (fdiv (fsub (distance total x0 x0) r) s) /\ val (fdiv (fsub (distance total x0 x0) r) s) = rnd (- val r / val s).
Proof.
  intros total x0 r s Ht H0 Hr Hs Ps Hb. destruct (distance_same total x0 x0 Ht H0 H0 eq_refl) as [N V].
  destruct (fsub_ok _ r N Hr) as [N1 V1]; [rewrite V, Rminus_0_l; rewrite rnd_F by (apply generic_format_opp, F64_val); rewrite Rabs_Ropp; apply val_lt|].
  rewrite V, Rminus_0_l, rnd_F in V1 by (apply generic_format_opp, F64_val). destruct (fdiv_ok _ s N1 ltac:(lra)) as [N2 V2]; [rewrite V1; exact Hb|]. split; [exact N2|]. rewrite V2, V1. reflexivity.
Qed.
(** adding less than 2^-55 to a number of size at least 1 changes nothing *)
Lemma absorbed : forall v h, F64 v -> 1 <= Rabs v -> 0 <= h <= bpow radix2 (-56) -> rnd (v + h) = v.
Proof.
  intros v h Fv Hv [H0 H1]. pose proof (nearest_of (v + h) v Fv) as K. replace (v - (v + h)) with (- h) in K by ring. rewrite Rabs_Ropp, (Rabs_pos_eq h) in K by lra.
  assert (Fr : F64 (rnd (v + h))) by (apply generic_format_round; [apply FLT_exp_valid; red; lia | apply valid_rnd_N]).
  assert (D : Rabs (rnd (v + h) - v) <= 2 * h) by (replace (rnd (v + h) - v) with ((rnd (v + h) - (v + h)) + h) by ring; eapply Rle_trans; [apply Rabs_triang|]; rewrite (Rabs_pos_eq h) by lra; lra).
  assert (P : bpow radix2 (-56) = / 72057594037927936) by reflexivity.
  destruct (multiple v (-1) ltac:(lia) Fv) as [a Ea]; [change (bpow radix2 (-1)) with (/ 2); lra|].
  destruct (multiple (rnd (v + h)) (-1) ltac:(lia) Fr) as [b Eb]; [change (bpow radix2 (-1)) with (/ 2); pose proof (Rabs_triang_inv v (v - rnd (v + h))) as T; replace (v - (v - rnd (v + h))) with (rnd (v + h)) in T by ring; rewrite (Rabs_minus_sym v) in T; lra|].
  change (-1 - 52)%Z with (-53)%Z in *. rewrite Eb, Ea in D. rewrite <- Rmult_minus_distr_r, <- minus_IZR, Rabs_mult, (Rabs_pos_eq (bpow radix2 (-53))), <- abs_IZR in D by apply bpow_ge_0.
  change (bpow radix2 (-53)) with (/ 9007199254740992) in D. assert (Z : (Z.abs (b - a) < 1)%Z) by (apply lt_IZR; lra). rewrite Eb, Ea. do 2 f_equal. lia.
Qed.
Lemma cdf_far : forall z, 50 <= z -> 1 - bpow radix2 (-1076) <= cdf z.
Proof.
  intros v V1. replace (cdf v) with (1 - cdf (- v)) by (rewrite cdf_sym; ring). apply Rplus_le_compat_l, Ropp_le_contravar.
  pose proof (h_pos (- v)) as H. pose proof (cdf_pos (- v)) as H1.
  apply Rle_trans with (phi (- v)); [nra|]. unfold phi. apply Rle_trans with (exp (- / 2 * (- v * - v))).
  - pose proof (exp_pos (- / 2 * (- v * - v))). apply div_le; [apply s2PI_pos|].
    assert (1 <= sqrt (2 * PI)) by (rewrite <- sqrt_1; apply sqrt_le_1; pose proof PI2_1; unfold PI2 in *; pose proof PI_RGT_0; lra). nra.
  - apply exp_tiny. nra.
Qed.
Lemma logcdf_far : forall z, 50 <= z -> - bpow radix2 (-60) <= ln (cdf z) <= 0.
Proof.
  intros z H. pose proof (cdf_far z H) as C. pose proof (cdf_pos z) as P. pose proof (cdf_lt_1 z) as Q. split; [|rewrite <- ln_1; apply ln_le; lra].
  assert (B : bpow radix2 (-1076) <= bpow radix2 (-61)) by (apply bpow_le; lia). assert (B60 : bpow radix2 (-60) = / 1152921504606846976) by reflexivity. assert (B61 : bpow radix2 (-61) = / 2305843009213693952) by reflexivity.
  replace (ln (cdf z)) with (- ln (/ cdf z)) by (rewrite ln_Rinv by exact P; ring). apply Ropp_le_contravar.
  assert (I : / cdf z <= 1 + bpow radix2 (-60)).
  { apply Rmult_le_reg_r with (cdf z); [exact P|]. rewrite Rinv_l by lra. rewrite B60. rewrite B61 in B. nra. }
  assert (I1 : 1 < / cdf z) by (rewrite <- Rinv_1 at 1; apply Rinv_lt_contravar; lra).
  replace (/ cdf z) with (1 + (/ cdf z - 1)) by ring. pose proof (ln_1p (/ cdf z - 1) ltac:(lra)). lra.
Qed.
Lemma added_single : forall l x, added l x -> forall y, l = [y] -> x = y.
Proof.
  intros l x H. induction H as [|x|l r x y Hl Hr H1 IH1 H2 IH2|l r x P H IH]; intros z E.
  - discriminate.
  - now injection E.
  - destruct l as [|a l]; [easy|]. destruct r as [|b r]; [easy|]. destruct l; discriminate E.
  - apply IH. subst. apply Permutation_length_1_inv. now apply Permutation_sym.
Qed.
(** what the radius and the width are *)
Lemma slope_val : forall g, number g -> val (estimate_L_f g) = slope (val g).
Proof.
  intros g N. destruct (neg_num g N) as [Nf Vf]. unfold estimate_L_f, slope, least_slope. cbn zeta. destruct e7_ok as [N7 _]. destruct (lit_ok 7555786372591432 (-76)) as [_ V7]; [cbn; lia | lia|].
  rewrite (flt_ok _ _ Nf N7), Vf. unfold e7_f at 1. rewrite V7. destruct (Rlt_dec (- val g) (7555786372591432 * bpow radix2 (-76))) as [H|H].
  - rewrite Rlt_bool_true by exact H. apply of_Z_ok. cbn. lia.
  - rewrite Rlt_bool_false by lra. exact Vf.
Qed.
Lemma radii_val : forall m pred Min g, moderate m -> number pred -> moderate Min -> moderate g ->
  val (fst (precompute_f m pred (estimate_L_f g) Min)) = rnd (rnd (val m - val Min) / slope (val g)) /\
  val (snd (precompute_f m pred (estimate_L_f g) Min)) = rnd (rnd (sqrt (Rmax (val pred) least_deviation)) / slope (val g)).
Proof.
  intros m pred Min g Hm Np HM Hg. destruct (radii m pred Min g [] Hm Np HM Hg (fun z H => match H with end)) as (_ & Nr & Ns & _). cbn [fst snd] in Nr, Ns.
  destruct (L_ok g Hg) as [[NL _] LL]. assert (PL : 0 < val (estimate_L_f g)) by (pose proof (bpow_gt_0 radix2 (-24)); lra). unfold precompute_f in *. cbn [fst snd] in *.
  assert (D : forall x y, number x -> 0 < val y -> number (fdiv x y) -> val (fdiv x y) = rnd (val x / val y)).
  { intros x y Nx Py Nd. pose proof (Bdiv_correct 53 1024 prec53 emax1024 mode_NE x y) as C. assert (Z : B2R y <> 0) by (unfold val in Py; lra). specialize (C Z).
    change (round radix2 (SpecFloat.fexp 53 1024) (round_mode mode_NE) (B2R x / B2R y)) with (rnd (val x / val y)) in C.
    destruct (Rlt_le_dec (Rabs (rnd (val x / val y))) (bpow radix2 1024)) as [L|G]; [rewrite Rlt_bool_true in C by exact L; apply C|].
    exfalso. rewrite Rlt_bool_false in C by exact G. unfold number, fdiv in Nd. unfold binary_overflow in C. cbn in C. destruct (Bdiv mode_NE x y); try discriminate. }
  rewrite <- (slope_val g (proj1 Hg)). split.
  - assert (Nd : number (fsub m Min)). { destruct Hm as [Nm Bm], HM as [NM BM]. refine (proj1 (fsub_mod m Min (2 * bpow radix2 900) Nm NM ltac:(lra) _)). change 1000%Z with (100 + 900)%Z. rewrite (bpow_plus radix2 100 900). apply Rmult_le_compat_r; [apply bpow_ge_0|]. change (bpow radix2 100) with (IZR (2 ^ 100)). apply IZR_le. cbn. lia. }
    rewrite D by assumption. f_equal. f_equal. destruct Hm as [Nm _], HM as [NM _]. now apply fsub_finite.
  - destruct e16_ok as [N16 _]. destruct (lit_ok 8112963841460668 (-106)) as [_ V16]; [cbn; lia | lia|]. set (p := if flt pred e16_f then e16_f else pred) in *.
    assert (Vp : number p /\ val p = Rmax (val pred) least_deviation).
    { unfold p, least_deviation. rewrite <- V16. fold e16_f. destruct (flt pred e16_f) eqn:F; [apply (flt_true _ _ Np N16) in F; rewrite Rmax_right by lra | apply (flt_false _ _ Np N16) in F; rewrite Rmax_left by lra]; auto. }
    destruct Vp as [N1 V1]. assert (P1 : 0 < val p) by (rewrite V1; eapply Rlt_le_trans; [|apply Rmax_r]; unfold least_deviation; pose proof (bpow_gt_0 radix2 (-106)); lra).
    assert (Ns1 : number (fsqrt p)).
    { destruct (pos_form p N1 P1) as (mm & e & b & Ep). unfold number, fsqrt. rewrite (proj1 (proj2 (Bsqrt_correct 53 1024 prec53 emax1024 mode_NE p))), Ep. reflexivity. }
    rewrite D by assumption. rewrite <- V1. do 2 f_equal. apply fsqrt_finite.
Qed.

(** ---- a library that rounds correctly *)
Definition exact_lp : lp_lib := mk_lp (fun x => to_float (exp (val x)))
  (fun x => if Rlt_bool 0 (val x) then to_float (ln (val x)) else if Rlt_bool (val x) 0 then B754_nan else minus_inf)
  (fun x => to_float (ln (1 + val x)))
  (fun x => match x with B754_infinity true => minus_inf | B754_infinity false => f0 | _ =>
     if Rlt_bool (Rabs (rnd (ln (cdf (val x))))) (bpow radix2 1024) then to_float (ln (cdf (val x))) else minus_inf end).
Lemma F64_pos_min : forall x, F64 x -> 0 < x -> bpow radix2 (-1074) <= x.
Proof.
  intros x Fx P. unfold F64 in Fx. unfold generic_format in Fx. set (c := cexp radix2 (FLT_exp (-1074) 53) x) in *. set (m := Ztrunc (scaled_mantissa radix2 (FLT_exp (-1074) 53) x)) in *.
  assert (C : (-1074 <= c)%Z) by (unfold c, cexp, FLT_exp; lia). rewrite Fx in P. apply gt_0_F2R in P. rewrite Fx. unfold F2R. cbn [Fnum Fexp].
  apply Rle_trans with (1 * bpow radix2 c); [rewrite Rmult_1_l; now apply bpow_le|]. apply Rmult_le_compat_r; [apply bpow_ge_0|]. apply (IZR_le 1). lia.
Qed.
Lemma ln2_le : 0 < ln 2 <= 1.
Proof. split; [rewrite <- ln_1; apply ln_increasing; lra|]. rewrite <- (ln_exp 1). apply ln_le; [lra|]. pose proof (exp_ineq1_le 1). lra. Qed.
Lemma ln_bpow : forall e, ln (bpow radix2 e) = IZR e * ln 2.
Proof. intros e. rewrite bpow_exp. rewrite ln_exp. reflexivity. Qed.
Lemma exact_lp_rounded : lp_rounded exact_lp.
Proof.
  destruct f0_ok as [Z0 V0]. pose proof ln2_le as L2. change nearest with rnd.
  assert (K : forall r, Rabs r <= 2000 -> number (to_float r) /\ val (to_float r) = rnd r).
  { intros r H. apply to_float_ok. apply in_range. apply Rle_trans with (bpow radix2 11); [change (bpow radix2 11) with 2048; lra | apply bpow_le; lia]. }
  assert (Hi : forall x : float, 1 + val x <= bpow radix2 1025).
  { intros x. pose proof (val_lt x) as V. apply Rabs_def2 in V. change 1025%Z with (1 + 1024)%Z. rewrite (bpow_plus radix2 1 1024). change (bpow radix2 1) with 2.
    assert (1 <= bpow radix2 1024) by (change 1 with (bpow radix2 0); apply bpow_le; lia). lra. }
  split; cbn [exact_lp exp_lp log_lp log1p_lp logcdf_lp].
  - intros x N V. apply to_float_ok. apply in_range. rewrite Rabs_pos_eq by (left; apply exp_pos). apply Rle_trans with (bpow radix2 90); [|apply bpow_le; lia].
    rewrite <- (exp_ln (bpow radix2 90)) by apply bpow_gt_0. left. apply exp_increasing. rewrite ln_bpow. assert (/ 2 * 1 <= ln 2); [|lra].
    rewrite <- (ln_exp (/ 2 * 1)). apply ln_le; [apply exp_pos|]. replace 2 with (sqrt (2 * 2)) at 2 by (rewrite sqrt_square; lra). rewrite <- (sqrt_square (exp (/ 2 * 1))) by (left; apply exp_pos).
    apply sqrt_le_1_alt. rewrite <- exp_plus. replace (/ 2 * 1 + / 2 * 1) with 1 by field. pose proof exp_le_3. lra.
  - intros x N V. apply K. rewrite Rabs_pos_eq by (rewrite <- ln_1; apply ln_le; lra). apply Rle_trans with (ln (bpow radix2 1025)); [apply ln_le; [lra | apply Hi]|]. rewrite ln_bpow. lra.
  - intros x N V. rewrite Rlt_bool_true by exact V. apply K. apply Rabs_le. split.
    + apply Rle_trans with (ln (bpow radix2 (-1074))); [rewrite ln_bpow; lra|]. apply ln_le; [apply bpow_gt_0|]. pose proof (F64_pos_min (val x) (F64_val x) V). lra.
    + apply Rle_trans with (ln (bpow radix2 1025)); [apply ln_le; [exact V | pose proof (Hi x); lra]|]. rewrite ln_bpow. lra.
  - intros x N V. rewrite V, !Rlt_bool_false by lra. reflexivity.
  - intros x N V. rewrite Rlt_bool_false by lra. rewrite Rlt_bool_true by lra. reflexivity.
  - intros x N H. destruct x as [b|b| |b m e h]; try discriminate N; rewrite Rlt_bool_true by exact H; now apply to_float_ok.
  - intros x N H. destruct x as [b|b| |b m e h]; try discriminate N; rewrite Rlt_bool_false by exact H; reflexivity.
  - reflexivity.
  - split; assumption.
Qed.
