(** The minimum of eggholder on its box, by interval subdivision: a boolean function on boxes with integer coordinates, proved sound and then
    computed.  The coordinates are u = x2 + 47 and y = x1 / 2, in units of 2^-28; the arguments of sin are in units of 2^-14. *)
From Coq Require Import Reals ZArith List Lra Lia Machin Bool.
From Verif.Model Require Import Bench.
Local Open Scope R_scope.

Lemma PI_digits : 31415926535 / 10000000000 < PI < 31415926536 / 10000000000.
Proof.
  pose proof (PI_2_3_7_ineq 7) as [L U]. cbv [sum_f_R0 Nat.mul Nat.add tg_alt PI_2_3_7_tg Ratan_seq] in L, U. simpl INR in L, U. simpl pow in L, U.
  split; lra.
Qed.

Section Integers.
Local Open Scope Z_scope.
Definition E : Z := 2 ^ 14.
Definition D : Z := 2 ^ 28.
Definition DD : Z := 2 ^ 56.
Definition PL : Z := 31415926535.
Definition PH : Z := 31415926536.
Definition PD : Z := 10000000000.
Definition cdiv (n m : Z) : Z := - ((- n) / m).
(** an upper bound of cos (s - p), for s in [a, b] and p in [pl, ph] *)
Definition cosub (a b pl ph : Z) : Z :=
  let dlo := Z.max 0 (Z.max (a - ph) (pl - b)) in
  let dhi := Z.max (b - pl) (ph - a) in
  if 5 * dhi <=? 12 * E then let q := dlo * dlo in cdiv (24 * DD - 12 * D * q + q * q) (24 * D)
  else if (79 * E <=? 50 * dlo) && (10 * dhi <=? 47 * E) then 0
  else D.
(** p = (4 k + quarter) PI / 2, the one next to the middle of [a, b] *)
Definition sinub (a b quarter : Z) : Z :=
  let m := (a + b) / 2 in
  let k := (2 * m * PD / E - quarter * PL + 2 * PL) / (4 * PL) in
  let c := 4 * k + quarter in
  if c <? 0 then D else cosub a b (c * PL * E / (2 * PD)) (cdiv (c * PH * E) (2 * PD)).
Definition max4 (a b c d : Z) : Z := Z.max (Z.max (a * c) (a * d)) (Z.max (b * c) (b * d)).
Definition absl (l h : Z) : Z := if 0 <=? l then l else if h <=? 0 then - h else 0.
Definition absh (l h : Z) : Z := Z.max (Z.abs l) (Z.abs h).
Definition bound (ul uh yl yh : Z) : Z :=
  let a := Z.sqrt (absl (ul + yl) (uh + yh)) in let b := Z.sqrt (absh (ul + yl) (uh + yh)) + 1 in
  let c := Z.sqrt (absl (2 * yl - uh) (2 * yh - ul)) in let d := Z.sqrt (absh (2 * yl - uh) (2 * yh - ul)) + 1 in
  max4 ul uh (- sinub a b 3) (sinub a b 1) + 2 * max4 yl yh (- sinub c d 3) (sinub c d 1).
(** every box is small enough, or inside the box (nu, nU, ny, nY) *)
Fixpoint bb (fuel : nat) (thr nu nU ny nY ul uh yl yh : Z) : bool :=
  if bound ul uh yl yh <=? thr then true
  else if (nu <=? ul) && (uh <=? nU) && (ny <=? yl) && (yh <=? nY) then true
  else match fuel with
       | O => false
       | S n =>
           if 2 * (yh - yl) <=? uh - ul then
             let m := (ul + uh) / 2 in
             if bb n thr nu nU ny nY ul m yl yh then bb n thr nu nU ny nY m uh yl yh else false
           else
             let m := (yl + yh) / 2 in
             if bb n thr nu nU ny nY ul uh yl m then bb n thr nu nU ny nY ul uh m yh else false
       end.
End Integers.

(** ---- the pieces *)
Lemma cdiv_le n m : (0 < m)%Z -> (n <= m * cdiv n m)%Z.
Proof. intro P. unfold cdiv. pose proof (Z.mul_div_le (- n) m P). lia. Qed.
Lemma E_num : IZR E = 16384. Proof. reflexivity. Qed.
Lemma D_EE : IZR D = IZR E * IZR E. Proof. rewrite <- mult_IZR. reflexivity. Qed.
Lemma DD_DD : IZR DD = IZR D * IZR D. Proof. rewrite <- mult_IZR. reflexivity. Qed.
Lemma E_pos : 0 < IZR E. Proof. rewrite E_num. lra. Qed.
Lemma D_pos : 0 < IZR D. Proof. rewrite D_EE. pose proof E_pos. nra. Qed.

Lemma cos_T d : 0 <= d <= 12 / 5 -> cos d <= 1 - d ^ 2 / 2 + d ^ 4 / 24.
Proof.
  intros H. set (h := d / 2). replace d with (2 * h) by (unfold h; field). assert (Hh : 0 <= h <= 6 / 5) by (unfold h; lra).
  rewrite cos_2a_sin. destruct (pre_sin_bound h 0) as [L _]; [lra|lra|].
  unfold sin_approx, sum_f_R0, sin_term in L. simpl in L. assert (L' : h - h ^ 3 / 6 <= sin h) by lra. clear L.
  assert (P : 0 <= h - h ^ 3 / 6) by nra. assert (Q : (h - h ^ 3 / 6) * (h - h ^ 3 / 6) <= sin h * sin h) by (apply Rmult_le_compat; lra).
  assert (0 <= h ^ 6) by (replace (h ^ 6) with ((h ^ 3) * (h ^ 3)) by ring; nra). nra.
Qed.
Lemma T_mono e d : 0 <= e <= d -> d <= 12 / 5 -> 1 - d ^ 2 / 2 + d ^ 4 / 24 <= 1 - e ^ 2 / 2 + e ^ 4 / 24.
Proof. intros A B. assert (e ^ 2 <= d ^ 2) by nra. assert (d ^ 2 <= 576 / 100) by nra. replace (d ^ 4) with (d ^ 2 * d ^ 2) by ring. replace (e ^ 4) with (e ^ 2 * e ^ 2) by ring. nra. Qed.
Lemma cosub_sound a b pl ph s p : IZR a <= s * IZR E <= IZR b -> IZR pl <= p * IZR E <= IZR ph -> cos (s - p) * IZR D <= IZR (cosub a b pl ph).
Proof.
  intros S P. unfold cosub. set (dlo := Z.max 0 (Z.max (a - ph) (pl - b))). set (dhi := Z.max (b - pl) (ph - a)).
  pose proof E_pos as EP. pose proof D_pos as DP.
  set (d := Rabs (s - p)).
  assert (C : cos (s - p) = cos d) by (unfold d, Rabs; destruct (Rcase_abs (s - p)); [now rewrite cos_neg|reflexivity]).
  assert (HI : d * IZR E <= IZR dhi).
  { unfold d. replace (Rabs (s - p) * IZR E) with (Rabs ((s - p) * IZR E)) by (rewrite Rabs_mult, (Rabs_right (IZR E)); lra).
    assert (IZR (b - pl) <= IZR dhi) by (apply IZR_le; unfold dhi; lia). assert (IZR (ph - a) <= IZR dhi) by (apply IZR_le; unfold dhi; lia).
    rewrite minus_IZR in *. apply Rabs_le. split; lra. }
  assert (LO : IZR dlo <= d * IZR E).
  { unfold d. replace (Rabs (s - p) * IZR E) with (Rabs ((s - p) * IZR E)) by (rewrite Rabs_mult, (Rabs_right (IZR E)); lra).
    unfold dlo. destruct (Z.max_spec 0 (Z.max (a - ph) (pl - b))) as [[_ ->]|[_ ->]]; [|apply Rabs_pos].
    destruct (Z.max_spec (a - ph) (pl - b)) as [[_ ->]|[_ ->]]; rewrite minus_IZR.
    - pose proof (Rle_abs (- ((s - p) * IZR E))). rewrite Rabs_Ropp in H. lra.
    - pose proof (Rle_abs ((s - p) * IZR E)). lra. }
  assert (L0 : 0 <= IZR dlo) by (apply IZR_le; unfold dlo; lia). assert (d0 : 0 <= d) by apply Rabs_pos. rewrite C.
  destruct (Z.leb_spec (5 * dhi) (12 * E)) as [A|A].
  - apply IZR_le in A. rewrite !mult_IZR in A. assert (d5 : d <= 12 / 5) by nra.
    set (e := IZR dlo / IZR E). assert (e0 : 0 <= e) by (unfold e; apply Rmult_le_pos; [lra|apply Rlt_le, Rinv_0_lt_compat; lra]).
    assert (eE : IZR dlo = e * IZR E) by (unfold e; field; lra). assert (ed : e <= d) by nra.
    pose proof (cos_T d (conj d0 d5)) as T. pose proof (T_mono e d (conj e0 ed) d5) as M.
    pose proof (cdiv_le (24 * DD - 12 * D * (dlo * dlo) + (dlo * dlo) * (dlo * dlo)) (24 * D) ltac:(reflexivity)) as K.
    apply IZR_le in K. rewrite mult_IZR in K. set (R := cdiv _ _) in *. rewrite plus_IZR, minus_IZR, !mult_IZR in K. rewrite DD_DD, D_EE, eE in K. rewrite D_EE.
    assert (X : (1 - e ^ 2 / 2 + e ^ 4 / 24) * (IZR E * IZR E) <= IZR R).
    { set (w := IZR E) in *. apply (Rmult_le_reg_l (24 * (w * w))); [nra|]. replace (24 * (w * w) * ((1 - e ^ 2 / 2 + e ^ 4 / 24) * (w * w))) with
        (24 * (w * w * (w * w)) - 12 * (w * w) * (e * w * (e * w)) + e * w * (e * w) * (e * w * (e * w))) by field. exact K. }
    assert (0 < IZR E * IZR E) by nra. nra.
  - destruct (Z.leb_spec (79 * E) (50 * dlo)) as [B|B]; cbn [andb]; [destruct (Z.leb_spec (10 * dhi) (47 * E)) as [B'|B']|].
    + apply IZR_le in B, B'. rewrite !mult_IZR in B, B'. assert (79 / 50 <= d <= 47 / 10) by nra. pose proof PI_digits.
      assert (cos d <= 0) by (apply cos_le_0; lra). nra.
    + pose proof (COS_bound d). nra.
    + pose proof (COS_bound d). nra.
Qed.
Lemma cos_turn s k : cos (s - 2 * INR k * PI) = cos s.
Proof. rewrite <- (cos_period (s - 2 * INR k * PI) k). f_equal. ring. Qed.
Lemma peak_sound a b s quarter : (0 < quarter < 4)%Z -> IZR a <= s * IZR E <= IZR b ->
  sinub a b quarter = D \/ exists k : nat, cos (s - (2 * INR k * PI + IZR quarter * (PI / 2))) * IZR D <= IZR (sinub a b quarter).
Proof.
  intros Q H. unfold sinub. set (k := (_ / (4 * PL))%Z). destruct (Z.ltb_spec (4 * k + quarter) 0) as [N|N]; [now left|]. right.
  exists (Z.to_nat k). apply cosub_sound; [exact H|]. assert (K : INR (Z.to_nat k) = IZR k) by (rewrite INR_IZR_INZ, Z2Nat.id; [reflexivity|lia]).
  rewrite K. set (c := (4 * k + quarter)%Z) in *. assert (C : 2 * IZR k * PI + IZR quarter * (PI / 2) = IZR c * (PI / 2)) by (unfold c; rewrite plus_IZR, mult_IZR; field).
  rewrite C. pose proof E_pos as EP. assert (c0 : 0 <= IZR c) by (apply IZR_le; lia). destruct PI_digits as [P1 P2].
  pose proof (Z.mul_div_le (c * PL * E) (2 * PD) ltac:(reflexivity)) as A. pose proof (cdiv_le (c * PH * E) (2 * PD) ltac:(reflexivity)) as B.
  set (l := (_ / (2 * PD))%Z) in *. set (h := cdiv _ _) in *. apply IZR_le in A, B. rewrite !mult_IZR in A, B. unfold PL, PH, PD in *.
  assert (cE : 0 <= IZR c * IZR E) by nra. set (w := IZR c * IZR E) in *.
  replace (IZR c * IZR 31415926535 * IZR E) with (w * 31415926535) in A by (unfold w; ring). replace (IZR c * IZR 31415926536 * IZR E) with (w * 31415926536) in B by (unfold w; ring).
  replace (IZR c * (PI / 2) * IZR E) with (w * PI / 2) by (unfold w; field). split; nra.
Qed.
Lemma sinub_sound a b s : IZR a <= s * IZR E <= IZR b -> sin s * IZR D <= IZR (sinub a b 1) /\ - sin s * IZR D <= IZR (sinub a b 3).
Proof.
  intro H. pose proof D_pos as DP. pose proof (SIN_bound s) as SB. split.
  - destruct (peak_sound a b s 1 ltac:(lia) H) as [-> | [k K]]; [nra|].
    replace (s - (2 * INR k * PI + 1 * (PI / 2))) with (- (PI / 2 - s) - 2 * INR k * PI) in K by ring. now rewrite cos_turn, cos_neg, cos_shift in K.
  - destruct (peak_sound a b s 3 ltac:(lia) H) as [-> | [k K]]; [nra|].
    replace (s - (2 * INR k * PI + 3 * (PI / 2))) with (- (PI / 2 - (s - PI)) - 2 * INR k * PI) in K by field.
    rewrite cos_turn, cos_neg, cos_shift in K. replace (s - PI) with (- (PI - s)) in K by ring. now rewrite sin_neg, sin_PI_x in K.
Qed.

Lemma max4_sound a b c d x t : a <= x <= b -> c <= t <= d -> x * t <= Rmax (Rmax (a * c) (a * d)) (Rmax (b * c) (b * d)).
Proof.
  intros X T. assert (x * t <= Rmax (a * t) (b * t)).
  { destruct (Rle_lt_dec 0 t); [apply Rle_trans with (b * t); [nra|apply Rmax_r]|apply Rle_trans with (a * t); [nra|apply Rmax_l]]. }
  assert (forall v, v * t <= Rmax (v * c) (v * d)).
  { intro v. destruct (Rle_lt_dec 0 v); [apply Rle_trans with (v * d); [nra|apply Rmax_r]|apply Rle_trans with (v * c); [nra|apply Rmax_l]]. }
  apply Rle_trans with (1 := H). apply Rmax_case; [apply Rle_trans with (1 := H0 a), Rmax_l|apply Rle_trans with (1 := H0 b), Rmax_r].
Qed.
Lemma IZR_max a b : IZR (Z.max a b) = Rmax (IZR a) (IZR b).
Proof. destruct (Z.max_spec a b) as [[H ->]|[H ->]]; [rewrite Rmax_right|rewrite Rmax_left]; try reflexivity; apply IZR_le; lia. Qed.
Lemma max4_Z a b c d x t : IZR a <= x <= IZR b -> IZR c <= t <= IZR d -> x * t <= IZR (max4 a b c d).
Proof. intros X T. unfold max4. rewrite !IZR_max, !mult_IZR. now apply max4_sound. Qed.
Lemma abs_sound l h v : IZR l <= v <= IZR h -> IZR (absl l h) <= Rabs v <= IZR (absh l h).
Proof.
  intro H. unfold absl, absh. split.
  - destruct (Z.leb_spec 0 l) as [A|A]; [|destruct (Z.leb_spec h 0) as [B|B]; [|apply Rabs_pos]].
    + apply IZR_le in A. pose proof (Rle_abs v). lra.
    + rewrite opp_IZR. pose proof (Rle_abs (- v)). rewrite Rabs_Ropp in H0. lra.
  - rewrite IZR_max, !abs_IZR. unfold Rabs at 1. destruct (Rcase_abs v).
    + apply Rle_trans with (Rabs (IZR l)); [|apply Rmax_l]. pose proof (Rle_abs (- IZR l)). rewrite Rabs_Ropp in H0. lra.
    + apply Rle_trans with (Rabs (IZR h)); [|apply Rmax_r]. pose proof (Rle_abs (IZR h)). lra.
Qed.
Lemma absl_pos l h : (l <= h)%Z -> (0 <= absl l h)%Z.
Proof. unfold absl. intro. destruct (Z.leb_spec 0 l), (Z.leb_spec h 0); lia. Qed.
(** the square root of a value in units of D, in units of E *)
Lemma sqrt_sound l h v : (0 <= l)%Z -> 0 <= v -> IZR l <= v * IZR D <= IZR h -> IZR (Z.sqrt l) <= sqrt v * IZR E <= IZR (Z.sqrt h + 1).
Proof.
  intros L V H. pose proof E_pos as EP. pose proof (sqrt_pos v) as SP. pose proof (sqrt_sqrt v V) as SS. rewrite D_EE in H. set (t := sqrt v * IZR E).
  assert (T : t * t = v * (IZR E * IZR E)) by (unfold t; rewrite <- SS at 3; ring). assert (t0 : 0 <= t) by (unfold t; nra). rewrite <- T in H.
  assert (h0 : (0 <= h)%Z) by (apply le_IZR; apply IZR_le in L; lra).
  pose proof (Z.sqrt_spec l L) as [A _]. pose proof (Z.sqrt_spec h h0) as [_ B]. pose proof (Z.sqrt_nonneg l) as C. pose proof (Z.sqrt_nonneg h) as C'.
  apply IZR_le in A, C, C'. apply IZR_lt in B. rewrite mult_IZR in A, B. rewrite <- Z.add_1_r, plus_IZR in B. rewrite plus_IZR. split; nra.
Qed.

(** - f, at u = x2 + 47 and y = x1 / 2 *)
Definition neg_egg (u y : R) : R := u * sin (sqrt (Rabs (u + y))) + 2 * (y * sin (sqrt (Rabs (2 * y - u)))).
Lemma neg_egg_eggholder x1 x2 : eggholder x1 x2 = - neg_egg (x2 + 47) (x1 / 2).
Proof.
  unfold eggholder, neg_egg. replace (x2 + x1 / 2 + 47) with (x2 + 47 + x1 / 2) by ring. replace (2 * (x1 / 2) - (x2 + 47)) with (x1 - (x2 + 47)) by field. field.
Qed.
Lemma bound_sound ul uh yl yh u y : IZR ul <= u * IZR D <= IZR uh -> IZR yl <= y * IZR D <= IZR yh -> neg_egg u y * (IZR D * IZR D) <= IZR (bound ul uh yl yh).
Proof.
  intros U Y. pose proof D_pos as DP. unfold bound.
  assert (UL : (ul <= uh)%Z) by (apply le_IZR; lra). assert (YL : (yl <= yh)%Z) by (apply le_IZR; lra).
  assert (S1 : IZR (Z.sqrt (absl (ul + yl) (uh + yh))) <= sqrt (Rabs (u + y)) * IZR E <= IZR (Z.sqrt (absh (ul + yl) (uh + yh)) + 1)).
  { apply sqrt_sound; [apply absl_pos; lia|apply Rabs_pos|]. rewrite <- (Rabs_right (IZR D)) by lra. rewrite <- Rabs_mult. apply abs_sound. rewrite !plus_IZR. lra. }
  assert (S2 : IZR (Z.sqrt (absl (2 * yl - uh) (2 * yh - ul))) <= sqrt (Rabs (2 * y - u)) * IZR E <= IZR (Z.sqrt (absh (2 * yl - uh) (2 * yh - ul)) + 1)).
  { apply sqrt_sound; [apply absl_pos; lia|apply Rabs_pos|]. rewrite <- (Rabs_right (IZR D)) by lra. rewrite <- Rabs_mult. apply abs_sound. rewrite !minus_IZR, !mult_IZR. lra. }
  apply sinub_sound in S1, S2. set (a := Z.sqrt _) in *. set (b := (Z.sqrt _ + 1)%Z) in *. set (c := Z.sqrt (absl (2 * yl - uh) _)) in *. set (d := (Z.sqrt (absh (2 * yl - uh) _) + 1)%Z) in *.
  unfold neg_egg. set (s1 := sin (sqrt (Rabs (u + y)))) in *. set (s2 := sin (sqrt (Rabs (2 * y - u)))) in *. rewrite plus_IZR, (mult_IZR 2).
  pose proof (max4_Z ul uh (- sinub a b 3) (sinub a b 1) (u * IZR D) (s1 * IZR D) U) as M1. pose proof (max4_Z yl yh (- sinub c d 3) (sinub c d 1) (y * IZR D) (s2 * IZR D) Y) as M2.
  rewrite opp_IZR in M1, M2. specialize (M1 ltac:(lra)). specialize (M2 ltac:(lra)).
  replace ((u * s1 + 2 * (y * s2)) * (IZR D * IZR D)) with (u * IZR D * (s1 * IZR D) + 2 * (y * IZR D * (s2 * IZR D))) by ring. lra.
Qed.
Lemma bb_sound fuel thr nu nU ny nY : forall ul uh yl yh u y, bb fuel thr nu nU ny nY ul uh yl yh = true -> IZR ul <= u * IZR D <= IZR uh -> IZR yl <= y * IZR D <= IZR yh ->
  neg_egg u y * (IZR D * IZR D) <= IZR thr \/ (IZR nu <= u * IZR D <= IZR nU /\ IZR ny <= y * IZR D <= IZR nY).
Proof.
  induction fuel as [|n IH]; intros ul uh yl yh u y H U Y; cbn [bb] in H; pose proof (bound_sound ul uh yl yh u y U Y) as B;
    (destruct (Z.leb_spec (bound ul uh yl yh) thr) as [L|L]; [left; apply IZR_le in L; lra|]);
    (destruct ((nu <=? ul)%Z && (uh <=? nU)%Z && (ny <=? yl)%Z && (yh <=? nY)%Z) eqn:N;
       [right; apply andb_true_iff in N as [N N4]; apply andb_true_iff in N as [N N3]; apply andb_true_iff in N as [N1 N2]; apply Z.leb_le, IZR_le in N1, N2, N3, N4; lra|]).
  - discriminate.
  - destruct (2 * (yh - yl) <=? uh - ul)%Z.
    + set (m := ((ul + uh) / 2)%Z) in *. destruct (bb n thr nu nU ny nY ul m yl yh) eqn:A; [|discriminate].
      destruct (Rle_lt_dec (u * IZR D) (IZR m)) as [C|C]; [apply (IH _ _ _ _ _ _ A); lra|apply (IH _ _ _ _ _ _ H); lra].
    + set (m := ((yl + yh) / 2)%Z) in *. destruct (bb n thr nu nU ny nY ul uh yl m) eqn:A; [|discriminate].
      destruct (Rle_lt_dec (y * IZR D) (IZR m)) as [C|C]; [apply (IH _ _ _ _ _ _ A); lra|apply (IH _ _ _ _ _ _ H); lra].
Qed.

Lemma egg_computed :
  bb 40 (9596406 * DD / 10000) (cdiv (4510319 * D) 10000) (4514319 * D / 10000) (cdiv (2559 * D) 10) (256 * D) (-465 * D) (559 * D) (-256 * D) (256 * D) = true.
Proof. vm_compute. reflexivity. Qed.

Lemma in_units a b v : IZR a <= v <= IZR b -> IZR (a * D) <= v * IZR D <= IZR (b * D).
Proof. intro. pose proof D_pos. rewrite !mult_IZR. nra. Qed.
Lemma threshold n m v : (0 < m)%Z -> v * (IZR D * IZR D) <= IZR (n * DD / m) -> v <= IZR n / IZR m.
Proof.
  intros M H. pose proof D_pos. pose proof (Z.mul_div_le (n * DD) m M) as A. apply IZR_le in A. rewrite !mult_IZR, DD_DD in A. set (w := IZR D * IZR D) in *.
  assert (0 < w) by (unfold w; nra). apply (IZR_lt 0) in M. apply (Rmult_le_reg_r (IZR m * w)); [nra|]. replace (IZR n / IZR m * (IZR m * w)) with (IZR n * w) by (field; lra). nra.
Qed.
(** away from the documented point *)
Lemma egg_far x1 x2 : -512 <= x1 <= 512 -> -512 <= x2 <= 512 ->
  neg_egg (x2 + 47) (x1 / 2) <= 959.6406 \/ (451.0319 <= x2 + 47 <= 451.4319 /\ 255.9 <= x1 / 2 <= 256).
Proof.
  intros A B. pose proof D_pos.
  destruct (bb_sound _ _ _ _ _ _ _ _ _ _ (x2 + 47) (x1 / 2) egg_computed) as [L|[[N1 N2] [N3 _]]]; [apply in_units; lra|apply in_units; lra|left|right].
  - apply (threshold 9596406 10000) in L; [lra|reflexivity].
  - pose proof (cdiv_le (4510319 * D) 10000 ltac:(reflexivity)) as P1. pose proof (Z.mul_div_le (4514319 * D) 10000 ltac:(reflexivity)) as P2. pose proof (cdiv_le (2559 * D) 10 ltac:(reflexivity)) as P3.
    apply IZR_le in P1, P2, P3. rewrite !mult_IZR in P1, P2, P3. repeat split; nra.
Qed.

(** ---- near the documented point *)
(** a square root is below any of its tangents *)
Lemma sqrt_tangent v r : 0 <= v -> 0 < r -> sqrt v <= (v / r + r) / 2.
Proof.
  intros V P. pose proof (sqrt_sqrt v V) as S. set (s := sqrt v) in *. apply (Rmult_le_reg_r (2 * r)); [lra|]. replace ((v / r + r) / 2 * (2 * r)) with (v + r * r) by (field; lra). pose proof (Rle_0_sqr (s - r)) as Q. unfold Rsqr in Q. lra.
Qed.
Lemma sin_turn s k : sin s = cos (s - (PI / 2 + 2 * INR k * PI)).
Proof. replace (s - (PI / 2 + 2 * INR k * PI)) with (- (PI / 2 - s) - 2 * INR k * PI) by ring. now rewrite cos_turn, cos_neg, cos_shift. Qed.
(** cos at a point below the negative number e *)
Lemma cos_below d e : - 12 / 5 <= d -> d <= e -> e <= 0 -> cos d <= 1 - e ^ 2 / 2 + e ^ 4 / 24.
Proof.
  intros A B C. rewrite <- cos_neg. apply Rle_trans with (1 := cos_T (- d) ltac:(lra)). pose proof (T_mono (- e) (- d) ltac:(lra) ltac:(lra)) as M.
  replace ((- e) ^ 2) with (e ^ 2) in M by ring. replace ((- e) ^ 4) with (e ^ 4) in M by ring. exact M.
Qed.
Lemma sqrt_least v r : 0 <= r -> r * r <= v -> r <= sqrt v.
Proof. intros A B. rewrite <- (sqrt_square r A). now apply sqrt_le_1_alt. Qed.
Definition E1 (t : R) : R := ((707.2319 + t) / 26.593832 + 26.593832) / 2 - 17 / 2 * (31415926535 / 10000000000).
Definition E2 (t : R) : R := ((60.7681 - t) / 7.79539 + 7.79539) / 2 - 5 / 2 * (31415926535 / 10000000000).
Lemma near_bound t y : - 0.2 <= t <= 0.2 -> 255.9 <= y <= 256 ->
  neg_egg (451.2319 + t) y <= (451.2319 + t) * (1 - E1 t ^ 2 / 2 + E1 t ^ 4 / 24) + 512 * (1 - E2 t ^ 2 / 2 + E2 t ^ 4 / 24) - (256 - y).
Proof.
  intros T Y. destruct PI_digits as [P1 P2]. unfold neg_egg. rewrite (Rabs_right (451.2319 + t + y)) by lra. rewrite (Rabs_right (2 * y - (451.2319 + t))) by lra.
  set (v1 := 451.2319 + t + y). set (v2 := 2 * y - (451.2319 + t)).
  assert (S1 : sqrt v1 <= ((707.2319 + t) / 26.593832 + 26.593832) / 2).
  { apply Rle_trans with (1 := sqrt_tangent v1 26.593832 ltac:(unfold v1; lra) ltac:(lra)). unfold v1. lra. }
  assert (S2 : sqrt v2 <= ((60.7681 - t) / 7.79539 + 7.79539) / 2).
  { apply Rle_trans with (1 := sqrt_tangent v2 7.79539 ltac:(unfold v2; lra) ltac:(lra)). unfold v2. lra. }
  assert (L1 : 26 <= sqrt v1) by (apply sqrt_least; unfold v1; lra). assert (L2 : 7.7 <= sqrt v2) by (apply sqrt_least; unfold v2; lra).
  rewrite (sin_turn (sqrt v1) 4), (sin_turn (sqrt v2) 1). simpl INR.
  set (d1 := sqrt v1 - _). set (d2 := sqrt v2 - _).
  assert (C1 : cos d1 <= 1 - E1 t ^ 2 / 2 + E1 t ^ 4 / 24) by (apply cos_below; unfold d1, E1; lra).
  assert (C2 : cos d2 <= 1 - E2 t ^ 2 / 2 + E2 t ^ 4 / 24) by (apply cos_below; unfold d2, E2; lra).
  assert (C3 : 1 / 2 <= cos d2).
  { replace (1 / 2) with (cos (PI / 3)) by (rewrite cos_PI3; lra). rewrite <- (cos_neg d2). apply cos_decr_1; unfold d2; lra. }
  nra.
Qed.
Lemma near_poly t : - 0.2 <= t <= 0.2 -> (451.2319 + t) * (1 - E1 t ^ 2 / 2 + E1 t ^ 4 / 24) + 512 * (1 - E2 t ^ 2 / 2 + E2 t ^ 4 / 24) <= 959.64067 - t ^ 2 - 0.00021 * t.
Proof.
  intro T. unfold E1, E2. assert (t2 : 0 <= t ^ 2) by nra. assert (t3 : - 0.2 * t ^ 2 <= t ^ 3 <= 0.2 * t ^ 2) by (replace (t ^ 3) with (t * t ^ 2) by ring; nra).
  assert (t4 : 0 <= t ^ 4 <= 0.04 * t ^ 2) by (replace (t ^ 4) with (t ^ 2 * t ^ 2) by ring; nra).
  assert (t5 : - 0.008 * t ^ 2 <= t ^ 5 <= 0.008 * t ^ 2) by (replace (t ^ 5) with (t ^ 3 * t ^ 2) by ring; nra).
  nra.
Qed.

Theorem egg_near x1 x2 : -512 <= x1 <= 512 -> -512 <= x2 <= 512 ->
  - 959.6407 <= eggholder x1 x2 /\ (eggholder x1 x2 < - 959.6406 -> Rabs (x1 - 512) <= 0.01 /\ Rabs (x2 - 404.2319) <= 0.01).
Proof.
  intros A B. rewrite neg_egg_eggholder. destruct (egg_far x1 x2 A B) as [F|[U Y]]; [split; [lra|intro; exfalso; lra]|].
  replace (x2 + 47) with (451.2319 + (x2 - 404.2319)) in * by lra. set (t := x2 - 404.2319) in *. set (y := x1 / 2) in *. assert (X : x1 = 2 * y) by (unfold y; field).
  pose proof (near_bound t y ltac:(lra) Y) as N. pose proof (near_poly t ltac:(lra)) as P. split; [nra|]. intro H. split; apply Rabs_le; [|nra]. split; [nra|lra].
Qed.

(** ---- at the documented point *)
Lemma cos_low d : - 3 / 2 <= d <= 3 / 2 -> 1 - d ^ 2 / 2 + d ^ 4 / 24 - d ^ 6 / 720 <= cos d.
Proof. intro H. destruct (pre_cos_bound d 1) as [L _]; [lra|lra|]. unfold cos_approx, sum_f_R0, cos_term in L. simpl in L. lra. Qed.
Lemma sqrt_between a lo hi : 0 <= lo -> 0 <= hi -> lo * lo < a < hi * hi -> lo < sqrt a < hi.
Proof.
  intros L H [A B]. split.
  - rewrite <- (sqrt_square lo) by lra. apply sqrt_lt_1_alt. nra.
  - rewrite <- (sqrt_square hi) by lra. apply sqrt_lt_1_alt. nra.
Qed.
Theorem egg_value : eggholder 512 404.2319 < - 959.6406.
Proof.
  destruct PI_digits as [P1 P2]. unfold eggholder. rewrite (Rabs_right (404.2319 + 512 / 2 + 47)) by lra. rewrite (Rabs_right (512 - (404.2319 + 47))) by lra.
  replace (404.2319 + 512 / 2 + 47) with 707.2319 by lra. replace (512 - (404.2319 + 47)) with 60.7681 by lra.
  pose proof (sqrt_between 707.2319 26.59383199 26.59383200 ltac:(lra) ltac:(lra) ltac:(lra)) as S1.
  pose proof (sqrt_between 60.7681 7.79538966 7.79538967 ltac:(lra) ltac:(lra) ltac:(lra)) as S2.
  set (s1 := sqrt 707.2319) in *. set (s2 := sqrt 60.7681) in *. rewrite (sin_turn s1 4), (sin_turn s2 1). simpl INR.
  set (d1 := s1 - _). set (d2 := s2 - _). assert (D1 : - 0.1097056 < d1 < - 0.1097055) by (unfold d1; lra). assert (D2 : - 0.0585921 < d2 < - 0.0585919) by (unfold d2; lra).
  pose proof (cos_low d1 ltac:(lra)) as C1. pose proof (cos_low d2 ltac:(lra)) as C2.
  assert (Q1 : d1 ^ 2 <= 0.1097056 ^ 2) by nra. assert (Q2 : d2 ^ 2 <= 0.0585921 ^ 2) by nra.
  assert (R1 : 0.1097055 ^ 2 <= d1 ^ 2) by nra. assert (R2 : 0.0585919 ^ 2 <= d2 ^ 2) by nra.
  replace (d1 ^ 4) with (d1 ^ 2 * d1 ^ 2) in C1 by ring. replace (d2 ^ 4) with (d2 ^ 2 * d2 ^ 2) in C2 by ring.
  replace (d1 ^ 6) with (d1 ^ 2 * d1 ^ 2 * d1 ^ 2) in C1 by ring. replace (d2 ^ 6) with (d2 ^ 2 * d2 ^ 2 * d2 ^ 2) in C2 by ring.
  set (q1 := d1 ^ 2) in *. set (q2 := d2 ^ 2) in *.
  assert (F1 : 0.1097055 ^ 2 * 0.1097055 ^ 2 <= q1 * q1) by nra. assert (F2 : 0.0585919 ^ 2 * 0.0585919 ^ 2 <= q2 * q2) by nra.
  assert (G1 : q1 * q1 * q1 <= 0.000002) by nra. assert (G2 : q2 * q2 * q2 <= 0.0000001) by nra. lra.
Qed.
