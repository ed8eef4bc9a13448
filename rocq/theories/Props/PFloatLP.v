(** Local penalization in double precision. *)
From Coq Require Import List ZArith Bool Reals Lra Lia.
From Flocq Require Import Core IEEE754.BinarySingleNaN.
From Verif.Model Require Import Py Float FloatStop FloatCons FloatAcq FloatLP AcqR.
From Verif.Spec Require Import FloatSpec FloatStopSpec FloatConsSpec FloatCostSpec FloatAcqSpec FloatAccSpec FloatLPSpec.
From Verif.Proof Require Import FloatP FloatStopP FloatConsP FloatCostP GaussP AcqP LPRank FloatAcqP FloatAccA FloatAccP FloatLPP.
From Verif.Props Require Import PFloatAcc.
Import ListNotations.
Local Open Scope R_scope.

(** C127, radius and width: for a mean, a minimum and a slope of size at most 2^900 and any finite deviation, the radius of the penaliser of a batch
    point is the rounded (mean - minimum) / slope and its width the rounded sqrt(deviation) / slope, and the width is positive; a slope below 1e-7
    is replaced by 10 and a deviation below 1e-16 by 1e-16. *)
Theorem C127_radii : forall m pred Min g, moderate m -> number pred -> moderate Min -> moderate g ->
  let h := precompute_f m pred (estimate_L_f g) Min in
  number (fst h) /\ val (fst h) = nearest (nearest (val m - val Min) / slope (val g)) /\
  number (snd h) /\ val (snd h) = nearest (nearest (sqrt (Rmax (val pred) least_deviation)) / slope (val g)) /\ 0 < val (snd h).
Proof.
  intros m pred Min g Hm Hp HM Hg. cbv zeta. destruct (radii m pred Min g [] Hm Hp HM Hg (fun z H => match H with end)) as (_ & A & B & C). destruct (radii_val m pred Min g Hm Hp HM Hg) as [D E]. cbn [fst snd] in *. repeat split; assumption.
Qed.
Print Assumptions C127_radii.
Theorem C127_constants : Rabs (least_slope - / 10000000) <= bpow radix2 (-77) /\ Rabs (least_deviation - / 10000000000000000) <= bpow radix2 (-107) /\
  Rabs (least_improvement - / 100000000000000000000000000000000000000000000000000) <= bpow radix2 (-220).
Proof.
  unfold least_slope, least_deviation, least_improvement. change (bpow radix2 (-219)) with (/ 842498333348457493583344221469363458551160763204392890034487820288). change (bpow radix2 (-220)) with (/ 1684996666696914987166688442938726917102321526408785780068975640576). change (bpow radix2 (-76)) with (/ 75557863725914323419136). change (bpow radix2 (-77)) with (/ 151115727451828646838272).
  change (bpow radix2 (-106)) with (/ 81129638414606681695789005144064). change (bpow radix2 (-107)) with (/ 162259276829213363391578010288128). repeat split; apply Rabs_le; lra.
Qed.
Print Assumptions C127_constants.

(** No NaN: the penalised acquisition of a number is a number or +inf at every location, for every order of summation; and being penalised never
    makes a location look better. *)
Theorem C127_no_nan : forall B total t u hs x, lp_like B -> (forall l, added l (total l)) -> transformable t u -> numbers x -> (forall h, In h hs -> penaliser h) ->
  forall o, o = None \/ o = Some hs -> number (penalized_f B total t u o x) \/ penalized_f B total t u o x = plus_inf.
Proof. intros B total t u hs x HB Ht T Hx Hh o [->| ->]; now apply (penalized_up B total t u hs x). Qed.
Print Assumptions C127_no_nan.
Theorem C127_penalty : forall B total t u hs x, lp_like B -> (forall l, added l (total l)) -> transformable t u -> numbers x -> (forall h, In h hs -> penaliser h) ->
  flt (penalized_f B total t u (Some hs) x) (penalized_f B total t u None x) = false.
Proof. intros. now apply penalized_up. Qed.
Print Assumptions C127_penalty.

(** Every batch point counts: with all of them a location is ranked no better than with any single one. *)
Theorem C127_every_point : forall B total t u hs h x, lp_like B -> (forall l, added l (total l)) -> transformable t u -> numbers x -> (forall h, In h hs -> penaliser h) -> In h hs ->
  flt (penalized_f B total t u (Some hs) x) (penalized_f B total t u (Some [h]) x) = false.
Proof.
  intros B total t u hs h x HB Ht T Hx Hh Hin. unfold penalized_f. cbn zeta. cbn [map]. rewrite (added_single _ _ (Ht [_]) _ eq_refl).
  assert (A : forall y, In y (map (hammer_f B total x) hs) -> np y) by (intros y Hy; apply in_map_iff in Hy as (k & <- & Hk); apply hammer_np; auto).
  apply lower_penalised; [now apply map_up | apply (np_sum _ _ (Ht _) A) | apply hammer_np; auto | apply (sum_lower _ _ (Ht _) A), in_map, Hin].
Qed.
Print Assumptions C127_every_point.

(** The order of acquisition values is kept before the first batch point, for functions that round correctly: a location whose acquisition is no worse
    is not ranked behind.  Other than in exact arithmetic (C53) this includes both sides of 40. *)
Theorem C127_order : forall B total t u v x y, lp_rounded B -> transformable t u -> transformable t v -> val u <= val v ->
  flt (penalized_f B total t v None y) (penalized_f B total t u None x) = false.
Proof.
  intros B total t u v x y HB [Nu Tu] [Nv Tv] V. unfold penalized_f. cbn zeta. destruct (neg_num u Nu) as [Nfu Vfu]. destruct (neg_num v Nv) as [Nfv Vfv].
  assert (K : forall a b, flt a b = false -> flt (fneg b) (fneg a) = false).
  { intros a b. destruct a as [sa|sa| |sa ma ea ha], b as [sb|sb| |sb mb eb hb]; try destruct sa; try destruct sb; try reflexivity; try (intros H; discriminate H).
    all: intros H; set (a := B754_finite _ ma ea ha) in *; set (b := B754_finite _ mb eb hb) in *; assert (Na : number a) by reflexivity; assert (Nb : number b) by reflexivity;
      destruct (neg_num a Na) as [Na' Va]; destruct (neg_num b Nb) as [Nb' Vb]; apply (flt_false _ _ Na Nb) in H; rewrite (flt_ok _ _ Nb' Na'), Va, Vb; apply Rlt_bool_false; lra. }
  apply K. apply transform_order; [exact HB | exact Nfv | exact Nfu | intros ->; cbn in Tv; lra | lra].
Qed.
Print Assumptions C127_order.

(** With softplus, every location whose acquisition is 1076 or more has the value +inf, before and after penalization: the locations cannot be told
    apart.  For the confidence bound of outcomes above 1076 that are not normalised this is every location. *)
Theorem C127_plateau : forall B total u hs x, lp_like B -> (forall l, added l (total l)) -> number u -> 1076 <= val u -> numbers x -> (forall h, In h hs -> penaliser h) ->
  penalized_f B total TSoftplus u None x = plus_inf /\ penalized_f B total TSoftplus u (Some hs) x = plus_inf.
Proof. exact lp_plateau. Qed.
Print Assumptions C127_plateau.

(** At a batch point the distance is exactly 0, whatever the coordinates and the order of summation: the penalty of that point is the rounded
    logarithm of the distribution function at the rounded -radius/width. *)
Theorem C127_pending : forall B total x0 r s, lp_rounded B -> (forall l, added l (total l)) -> penaliser (x0, (r, s)) ->
  Rabs (nearest (- val r / val s)) < bpow radix2 1024 -> Rabs (nearest (ln (cdf (nearest (- val r / val s))))) < bpow radix2 1024 ->
  number (hammer_f B total x0 (x0, (r, s))) /\ val (hammer_f B total x0 (x0, (r, s))) = nearest (ln (cdf (nearest (- val r / val s)))).
Proof.
  intros B total x0 r s HB Ht (H0 & Hr & Hs & Ps) A C. cbn [fst snd] in *. destruct (at_center total x0 r s Ht H0 Hr Hs Ps A) as [N V]. unfold hammer_f. cbn [fst snd].
  change nearest with rnd in *. rewrite <- V in C |- *. now apply (r_logcdf B HB).
Qed.
Print Assumptions C127_pending.

(** The value before the first batch point, for functions that round correctly.  With softplus and an acquisition of -40 or below it is minus the rounded
    logarithm; with one that is larger it is minus the rounded logarithm of the rounded softplus, where that is not 0; without a transformation it is
    always a number, also for an acquisition of 0. *)
Theorem C127_value : forall B total u x, lp_rounded B -> number u ->
  (val u <= -40 -> number (penalized_f B total TSoftplus u None x) /\ val (penalized_f B total TSoftplus u None x) = - nearest (ln (- val u))) /\
  (-40 < val u -> 0 < nearest (ln (1 + nearest (exp (- val u)))) ->
     number (penalized_f B total TSoftplus u None x) /\ val (penalized_f B total TSoftplus u None x) = - nearest (ln (nearest (ln (1 + nearest (exp (- val u))))))) /\
  (val u <= 0 -> number (penalized_f B total TNone u None x) /\ val (penalized_f B total TNone u None x) = - nearest (ln (nearest (- val u + least_improvement)))).
Proof.
  intros B total u x HB Nu. destruct (neg_num u Nu) as [Nf Vf]. unfold penalized_f. cbn zeta. rewrite <- Vf. split; [|split].
  - intros V. rewrite (softplus_high B _ Nf) by lra. destruct (r_log B HB _ Nf ltac:(lra)) as [NL VL]. destruct (neg_num _ NL) as [Nv Vv]. split; [exact Nv|]. rewrite Vv, VL. reflexivity.
  - intros V P. rewrite (softplus_low B _ Nf) by lra. destruct (r_exp B HB _ Nf ltac:(lra)) as [N1 V1].
    destruct (r_log1p B HB _ N1) as [N2 V2]; [rewrite V1; apply rnd_nonneg; pose proof (exp_pos (val (fneg u))); lra|]. rewrite V1 in V2.
    destruct (r_log B HB _ N2 ltac:(lra)) as [N3 V3]. destruct (neg_num _ N3) as [Nv Vv]. split; [exact Nv|]. rewrite Vv, V3, V2. reflexivity.
  - intros V. cbn [lp_map_f]. destruct e50_ok as [N5 V5]. destruct (plus_tiny _ Nf ltac:(lra)) as (N1 & _ & P). pose proof (fadd_finite _ _ Nf N5 N1) as V1.
    destruct (r_log B HB _ N1 P) as [N3 V3]. destruct (neg_num _ N3) as [Nv Vv]. split; [exact Nv|]. rewrite Vv, V3, V1, V5. reflexivity.
Qed.
Print Assumptions C127_value.

(** One batch point, any location: the value is the rounded difference of the value before and the rounded logarithm of the distribution function at the
    rounded (distance - radius) / width, unless one of them is too large for a double. *)
Theorem C127_one : forall B total t u x x0 r s, lp_rounded B -> (forall l, added l (total l)) -> penaliser (x0, (r, s)) ->
  let v := penalized_f B total t u None x in let d := distance total x x0 in
  let z := nearest (nearest (val d - val r) / val s) in let p := nearest (ln (cdf z)) in
  number v -> number d -> Rabs (nearest (val d - val r)) < bpow radix2 1024 -> Rabs z < bpow radix2 1024 -> Rabs p < bpow radix2 1024 -> Rabs (nearest (val v - p)) < bpow radix2 1024 ->
  number (penalized_f B total t u (Some [(x0, (r, s))]) x) /\ val (penalized_f B total t u (Some [(x0, (r, s))]) x) = nearest (val v - p).
Proof.
  intros B total t u x x0 r s HB Ht (H0 & Hr & Hs & Ps) v d z p Nv Nd A1 A2 A3 A4. cbn [fst snd] in *. unfold penalized_f. cbn zeta. cbn [map].
  rewrite (added_single _ _ (Ht [_]) _ eq_refl). fold v. unfold hammer_f. cbn [fst snd]. fold d.
  destruct (fsub_ok d r Nd Hr A1) as [N1 V1]. destruct (fdiv_ok (fsub d r) s N1 ltac:(lra)) as [N2 V2]; [rewrite V1; exact A2|]. rewrite V1 in V2. change (rnd (rnd (val d - val r) / val s)) with z in V2.
  destruct (r_logcdf B HB _ N2) as [N3 V3]; [rewrite V2; exact A3|]. rewrite V2 in V3. destruct (neg_num _ N3) as [N4 V4]. rewrite V3 in V4. change (nearest (ln (cdf z))) with p in V4.
  change (fneg (lp_map_f B t (fneg u))) with v.
  destruct (fadd_ok v _ Nv N4) as [N5 V5]; [rewrite V4; exact A4|]. split; [exact N5|]. rewrite V5, V4. reflexivity.
Qed.
Print Assumptions C127_one.

(** The libraries the theorems are about. *)
Theorem C127_library : forall B, lp_rounded B -> lp_like B.
Proof. exact lp_rounded_like. Qed.
Print Assumptions C127_library.

(** The hypotheses are met: correctly rounded functions exist, and a mean of 3, a minimum of 1, a deviation of 4 and a slope of 2 give the radius 1 and the width 1. *)
Example C127_nonvacuous : lp_rounded exact_lp /\ (forall l, added l (from_left l)) /\ transformable TSoftplus (of_Z 7) /\ transformable TNone (of_Z (-7)) /\
  (let h := precompute_f (of_Z 3) (of_Z 4) (estimate_L_f (of_Z (-2))) (of_Z 1) in val (fst h) = 1 /\ val (snd h) = 1 /\ penaliser ([of_Z 5], h)) /\
  slope (-2) = 2 /\ slope 3 = 10.
Proof.
  assert (O : forall n, (Z.abs n <= 2 ^ 53)%Z -> number (of_Z n) /\ val (of_Z n) = IZR n) by (intros n H; now apply of_Z_ok).
  assert (M : forall n, (Z.abs n <= 2 ^ 53)%Z -> moderate (of_Z n)) by (intros n H; now apply mod_small).
  assert (Lp : 0 < least_slope <= 1).
  { unfold least_slope. change (bpow radix2 (-76)) with (/ 75557863725914323419136). lra. }
  assert (Ld : least_deviation <= 1).
  { unfold least_deviation. change (bpow radix2 (-106)) with (/ 81129638414606681695789005144064). lra. }
  split; [exact exact_lp_rounded|]. split; [exact from_left_added|]. split; [split; [apply O; cbn; lia | exact I]|]. split; [split; [apply O; cbn; lia | rewrite (proj2 (O (-7)%Z ltac:(cbn; lia))); cbn; lra]|].
  assert (S2 : slope (-2) = 2) by (unfold slope; destruct (Rlt_dec (- -2) least_slope); lra). split; [|split; [exact S2 | unfold slope; destruct (Rlt_dec (Ropp 3) least_slope); lra]].
  cbv zeta. destruct (C127_radii (of_Z 3) (of_Z 4) (of_Z 1) (of_Z (-2)) (M 3%Z ltac:(cbn; lia)) (proj1 (O 4%Z ltac:(cbn; lia))) (M 1%Z ltac:(cbn; lia)) (M (-2)%Z ltac:(cbn; lia))) as (A1 & A2 & A3 & A4 & A5).
  set (h := precompute_f _ _ _ _) in *. assert (R : forall n, (Z.abs n <= 2 ^ 53)%Z -> nearest (IZR n) = IZR n) by (intros n H; apply (rnd_F (IZR n)); now apply F64_IZR).
  rewrite (proj2 (O 3%Z ltac:(cbn; lia))), (proj2 (O 1%Z ltac:(cbn; lia))), (proj2 (O (-2)%Z ltac:(cbn; lia))) in A2. rewrite (proj2 (O 4%Z ltac:(cbn; lia))), (proj2 (O (-2)%Z ltac:(cbn; lia))) in A4. rewrite S2 in A2, A4. replace (3 - 1) with 2 in A2 by ring. rewrite (R 2%Z) in A2 by (cbn; lia). replace (2 / 2) with 1 in A2 by field. rewrite (R 1%Z) in A2 by (cbn; lia).
  rewrite Rmax_left in A4 by lra. replace 4 with (2 * 2) in A4 by ring. rewrite sqrt_square in A4 by lra. rewrite (R 2%Z) in A4 by (cbn; lia). replace (2 / 2) with 1 in A4 by field. rewrite (R 1%Z) in A4 by (cbn; lia).
  split; [exact A2|]. split; [exact A4|]. split; [intros z [<-|[]]; apply O; cbn; lia|]. auto.
Qed.
(** That a batch point is always ranked worse than before is false: where the prediction at it is far below the minimum the penalty is rounded away,
    and the batch may repeat the point. *)
Theorem C127_refuted : exists m pred Min g x0 u, moderate m /\ moderate pred /\ moderate Min /\ moderate g /\ numbers x0 /\ transformable TSoftplus u /\
  forall B total, lp_rounded B -> (forall l, added l (total l)) ->
    let h := (x0, precompute_f m pred (estimate_L_f g) Min) in
    number (penalized_f B total TSoftplus u None x0) /\ val (penalized_f B total TSoftplus u (Some [h]) x0) = val (penalized_f B total TSoftplus u None x0).
Proof.
  assert (O : forall n, (Z.abs n <= 2 ^ 53)%Z -> number (of_Z n) /\ val (of_Z n) = IZR n) by (intros n H; now apply of_Z_ok).
  assert (M : forall n, (Z.abs n <= 2 ^ 53)%Z -> moderate (of_Z n)) by (intros n H; now apply mod_small).
  assert (R : forall n, (Z.abs n <= 2 ^ 53)%Z -> nearest (IZR n) = IZR n) by (intros n H; apply (rnd_F (IZR n)); now apply F64_IZR).
  exists (of_Z (-50)), (of_Z 1), (of_Z 0), (of_Z (-1)), [of_Z 5], (of_Z (-100)).
  split; [apply M; cbn; lia|]. split; [apply M; cbn; lia|]. split; [apply M; cbn; lia|]. split; [apply M; cbn; lia|].
  assert (X0 : numbers [of_Z 5]) by (intros z [<-|[]]; apply O; cbn; lia). split; [exact X0|]. split; [split; [apply O; cbn; lia | exact I]|].
  intros B total HB Ht. cbv zeta.
  assert (Lp : 0 < least_slope <= / 2).
  { unfold least_slope. change (bpow radix2 (-76)) with (/ 75557863725914323419136). lra. }
  assert (Ld : least_deviation <= 1).
  { unfold least_deviation. change (bpow radix2 (-106)) with (/ 81129638414606681695789005144064). lra. }
  assert (S1 : slope (-1) = 1) by (unfold slope; destruct (Rlt_dec (- -1) least_slope); lra).
  destruct (C127_radii (of_Z (-50)) (of_Z 1) (of_Z 0) (of_Z (-1)) (M (-50)%Z ltac:(cbn; lia)) (proj1 (O 1%Z ltac:(cbn; lia))) (M 0%Z ltac:(cbn; lia)) (M (-1)%Z ltac:(cbn; lia))) as (A1 & A2 & A3 & A4 & A5).
  destruct (precompute_f _ _ _ _) as [r s] eqn:Ep. cbn [fst snd] in *.
  rewrite (proj2 (O (-50)%Z ltac:(cbn; lia))), (proj2 (O 0%Z ltac:(cbn; lia))), (proj2 (O (-1)%Z ltac:(cbn; lia))) in A2. rewrite (proj2 (O 1%Z ltac:(cbn; lia))), (proj2 (O (-1)%Z ltac:(cbn; lia))) in A4. rewrite S1 in A2, A4. replace (-50 - 0) with (-50) in A2 by ring. rewrite (R (-50)%Z) in A2 by (cbn; lia). replace (-50 / 1) with (-50) in A2 by field. rewrite (R (-50)%Z) in A2 by (cbn; lia).
  rewrite Rmax_left, sqrt_1, (R 1%Z) in A4 by (try lra; cbn; lia). replace (1 / 1) with 1 in A4 by field. rewrite (R 1%Z) in A4 by (cbn; lia).
  assert (Q : nearest (- val r / val s) = 50) by (rewrite A2, A4; replace (- -50 / 1) with 50 by field; apply (R 50%Z); cbn; lia).
  pose proof (logcdf_far 50 ltac:(lra)) as [F1 F2]. assert (B60 : bpow radix2 (-60) <= bpow radix2 (-56)) by (apply bpow_le; lia).
  assert (G : - bpow radix2 (-60) <= nearest (ln (cdf 50)) <= 0).
  { change nearest with rnd. split; [rewrite <- (rnd_F (- bpow radix2 (-60))) by (apply generic_format_opp, F64_bpow; lia) | rewrite <- rnd_0]; now apply rnd_mono. }
  destruct (C127_pending B total [of_Z 5] r s HB Ht) as [N V].
  { repeat split; assumption. }
  { rewrite Q, Rabs_pos_eq by lra. apply Rlt_trans with (bpow radix2 6); [change (bpow radix2 6) with 64; lra | apply bpow_lt; lia]. }
  { rewrite Q. apply Rle_lt_trans with 1; [apply Rabs_le; assert (bpow radix2 (-60) <= 1) by (change 1 with (bpow radix2 0); apply bpow_le; lia); lra|]. change 1 with (bpow radix2 0). apply bpow_lt. lia. }
  rewrite Q in V. unfold penalized_f. cbn zeta. cbn [map]. rewrite (added_single _ _ (Ht [_]) _ eq_refl).
  destruct (O (-100)%Z ltac:(cbn; lia)) as [Nu Vu]. destruct (neg_num _ Nu) as [Nf Vf]. rewrite Vu in Vf. replace (- -100) with 100 in Vf by ring. rewrite (softplus_high B _ Nf) by lra.
  destruct (r_log B HB _ Nf ltac:(lra)) as [NL VL]. change nearest with rnd in *. rewrite Vf in VL. destruct (neg_num _ NL) as [Nv Vv]. destruct (neg_num _ N) as [Nh Vh]. split; [exact Nv|].
  assert (L1 : 1 <= rnd (ln 100)).
  { rewrite <- (rnd_F 1) by (apply F64_IZR; cbn; lia). apply rnd_mono. rewrite <- (ln_exp 1). apply ln_le; [apply exp_pos | pose proof exp_le_3; lra]. }
  set (w := fneg (log_lp B (fneg (of_Z (-100))))) in *. set (k := fneg (hammer_f B total [of_Z 5] ([of_Z 5], (r, s)))) in *.
  assert (E : rnd (val w + val k) = val w).
  { apply absorbed; [apply F64_val | rewrite Vv, VL, Rabs_Ropp; pose proof (Rle_abs (rnd (ln 100))); lra | rewrite Vh, V; lra]. }
  destruct (fadd_ok w k Nv Nh) as [_ Z]; [rewrite E; apply val_lt | rewrite Z; exact E].
Qed.
Print Assumptions C127_refuted.
