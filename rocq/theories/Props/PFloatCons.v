(** C120: constraints evaluated in double precision. *)
From Coq Require Import List ZArith Bool Reals Lra Lia Psatz.
From Flocq Require Import Core IEEE754.BinarySingleNaN.
From Verif.Model Require Import Py Float FloatStop FloatCons.
From Verif.Spec Require Import FloatSpec FloatConsSpec.
From Verif.Proof Require Import Num FloatP FloatStopP FloatConsP.
Import ListNotations.
Local Open Scope R_scope.

(** A row declared feasible violates the constraint by at most the tolerance; a row declared infeasible satisfies it by less than that. *)
Theorem C120_margin : forall x e v, regular x e -> satisfies [e] x = Ok v ->
  (v = true -> exact x e <= tolerance x e) /\ (v = false -> - tolerance x e < exact x e).
Proof.
  intros x e v R S. destruct (satisfies_spec x [e] v S) as [A B]. inversion A as [|? ? (u & E) _]; subst.
  destruct (tolerance_spec x e u R E) as [N H]. apply Rabs_le_inv in H. split; intros ->.
  - destruct B as [B _]. specialize (B eq_refl). inversion B as [|? ? (u' & E' & L) _]; subst. rewrite E in E'. injection E' as <-. apply fle0 in L; [lra|exact N].
  - destruct (Rlt_le_dec (- tolerance x e) (exact x e)) as [L|L]; [exact L|]. exfalso. assert (F : false = true); [|discriminate]. apply B. constructor; [|constructor].
    exists u. split; [exact E|]. apply fle0; [exact N|lra].
Qed.
Print Assumptions C120_margin.
(** So the verdict is right wherever the exact value is farther from zero than the tolerance; for a matrix of rows and several constraints. *)
Theorem C120_decided : forall es X, (forall x e i, In x X -> In e es -> mentions i e -> (i < length x)%nat) ->
  exists fs, indicator_constraints_f es X = Ok fs /\
  Forall2 (fun x f => (val f = 0 \/ val f = 1) /\
    ((forall e, In e es -> regular x e /\ tolerance x e < Rabs (exact x e)) -> (val f = 1 <-> forall e, In e es -> exact x e <= 0))) X fs.
Proof.
  intros es X W.
  assert (EV : forall x, In x X -> exists b, satisfies es x = Ok b).
  { intros x I. assert (W' : forall e, In e es -> forall i, mentions i e -> (i < length x)%nat) by (intros e Ie i M; exact (W x e i I Ie M)). clear - W'.
    induction es as [|e es IH]; [eexists; reflexivity|]. cbn [satisfies].
    assert (V : exists v, xeval x e = Ok v).
    { specialize (W' e (or_introl eq_refl)). clear - W'. induction e as [v|i|a IHa|a IHa|a IHa|a IHa b IHb|a IHa b IHb|a IHa b IHb|a IHa b IHb]; cbn [xeval mentions] in *.
      - eauto.
      - specialize (W' i eq_refl). destruct (nth_error x i) eqn:E; [eauto|apply nth_error_None in E; lia].
      - destruct (IHa W') as (u & ->). cbn. eauto.
      - destruct (IHa W') as (u & ->). cbn. eauto.
      - destruct (IHa W') as (u & ->). cbn. eauto.
      - destruct IHa as (u & ->); [auto|]. destruct IHb as (w & ->); [auto|]. cbn. eauto.
      - destruct IHa as (u & ->); [auto|]. destruct IHb as (w & ->); [auto|]. cbn. eauto.
      - destruct IHa as (u & ->); [auto|]. destruct IHb as (w & ->); [auto|]. cbn. eauto.
      - destruct IHa as (u & ->); [auto|]. destruct IHb as (w & ->); [auto|]. cbn. eauto. }
    destruct V as (v & ->). destruct IH as (b & ->); [intros e' I'; apply W'; now right|]. cbn. eauto. }
  clear W. unfold indicator_constraints_f. induction X as [|x X IH]; [exists []; split; [reflexivity|constructor]|].
  destruct IH as (fs & A & B); [intros y I; apply EV; now right|]. destruct (EV x (or_introl eq_refl)) as (b & S).
  cbn [mapM]. rewrite S. cbn [bind]. rewrite A. cbn [bind]. eexists. split; [reflexivity|]. constructor; [|exact B].
  destruct (of_Z_ok 1) as [_ O]; [lia|]. destruct (of_Z_ok 0) as [_ Z]; [lia|]. destruct (satisfies_spec x es b S) as [C D].
  assert (F : val (of_Z (if b then 1 else 0)) = 1 <-> b = true). { destruct b; [rewrite O; split; auto|rewrite Z; split; [lra|discriminate]]. }
  split; [destruct b; [right; exact O|left; exact Z]|]. intros H. rewrite F, D, List.Forall_forall. rewrite List.Forall_forall in C. split; intros G e I.
  - destruct (G e I) as (v & E & L). destruct (H e I) as [R T]. destruct (tolerance_spec x e v R E) as [N K]. apply fle0 in L; [|exact N]. apply Rabs_le_inv in K.
    destruct (Rle_lt_dec (exact x e) 0) as [Q|Q]; [exact Q|]. rewrite Rabs_pos_eq in T by lra. lra.
  - destruct (C e I) as (v & E). exists v. split; [exact E|]. destruct (H e I) as [R T]. destruct (tolerance_spec x e v R E) as [N K]. apply fle0; [exact N|]. apply Rabs_le_inv in K.
    specialize (G e I). rewrite Rabs_left1 in T by exact G. lra.
Qed.
Print Assumptions C120_decided.
(** A constraint that compares two columns, or a column with a literal, is decided exactly. *)
Theorem C120_difference : forall x a b v, leaf a -> leaf b -> (forall u, xeval x a = Ok u \/ xeval x b = Ok u -> number u) ->
  satisfies [XSub a b] x = Ok v -> (v = true <-> exact x a <= exact x b).
Proof.
  intros x a b v La Lb N S. destruct (satisfies_spec x [XSub a b] v S) as [A B]. inversion A as [|? ? (w & E) _]; subst. cbn [xeval] in E.
  destruct (xeval x a) as [u|] eqn:Ea; [|discriminate]. destruct (xeval x b) as [u'|] eqn:Eb; [|discriminate]. cbn [bind] in E. injection E as <-.
  assert (Va : exact x a = val u). { destruct a; try contradiction; cbn in *; [now injection Ea as ->|]. destruct (nth_error x i); [|discriminate]. now injection Ea as ->. }
  assert (Vb : exact x b = val u'). { destruct b; try contradiction; cbn in *; [now injection Eb as ->|]. destruct (nth_error x i); [|discriminate]. now injection Eb as ->. }
  rewrite Va, Vb, <- diff_sign by (apply N; auto). rewrite B. split.
  - intros H. inversion H as [|? ? (w & E & L) _]; subst. cbn [xeval] in E. rewrite Ea, Eb in E. cbn [bind] in E. now injection E as ->.
  - intros H. constructor; [|constructor]. eexists. cbn [xeval]. rewrite Ea, Eb. cbn [bind]. split; [reflexivity|exact H].
Qed.
Print Assumptions C120_difference.
(** A row with NaN in a column that a constraint mentions is infeasible. *)
Theorem C120_nan : forall es x i e v, nth_error x i = Some (B754_nan : float) -> In e es -> mentions i e -> satisfies es x = Ok v -> v = false.
Proof.
  intros es x i e v H I M S. destruct (satisfies_spec x es v S) as [_ B]. destruct v; [|reflexivity]. exfalso. destruct B as [B _]. specialize (B eq_refl).
  rewrite List.Forall_forall in B. destruct (B e I) as (w & E & L). rewrite fle_nan in L; [discriminate|]. left. exact (nan_op e i x w H M E).
Qed.
Print Assumptions C120_nan.
(** The tolerance is needed: (x0 + x1) - 2^60 <= 0 is found true of (2^60, 1), whose exact value is 1 ... *)
Definition two60 : float := lit 1 60.
Definition sum_limit : fexpr := XSub (XAdd (XCol 0) (XCol 1)) (XNum two60).
Theorem C120_rounding_refuted : satisfies [sum_limit] [two60; of_Z 1] = Ok true /\ exact [two60; of_Z 1] sum_limit = 1.
Proof.
  split; [vm_compute; reflexivity|]. destruct (of_Z_ok 1) as [_ O]; [lia|]. cbn [exact sum_limit nth_error]. rewrite O. ring.
Qed.
Print Assumptions C120_rounding_refuted.
(** ... and x0*x0 - x0*x1 <= 0 is found false of (2^600, 2^600), where both products overflow and the exact value is 0. *)
Definition big : float := lit 1 600.
Theorem C120_overflow_refuted : satisfies [XSub (XMul (XCol 0) (XCol 0)) (XMul (XCol 0) (XCol 1))] [big; big] = Ok false /\
  exact [big; big] (XSub (XMul (XCol 0) (XCol 0)) (XMul (XCol 0) (XCol 1))) = 0.
Proof. split; [vm_compute; reflexivity|]. cbn [exact nth_error]. ring. Qed.
Print Assumptions C120_overflow_refuted.

(** x0 + x1 - 4 <= 0 at (1, 2) and at (3, 2). *)
Definition sum4 : fexpr := XSub (XAdd (XCol 0) (XCol 1)) (XNum (of_Z 4)).
Lemma sum4_regular : forall a b : Z, (Z.abs a <= 100)%Z -> (Z.abs b <= 100)%Z ->
  regular [of_Z a; of_Z b] sum4 /\ exact [of_Z a; of_Z b] sum4 = IZR (a + b - 4) /\ tolerance [of_Z a; of_Z b] sum4 < / 2.
Proof.
  intros a b Ha Hb. destruct (of_Z_ok a) as [A1 A2]; [lia|]. destruct (of_Z_ok b) as [B1 B2]; [lia|]. destruct (of_Z_ok 4) as [F1 F2]; [lia|].
  assert (S : number (fadd (of_Z a) (of_Z b)) /\ val (fadd (of_Z a) (of_Z b)) = IZR (a + b)).
  { assert (E : rnd (val (of_Z a) + val (of_Z b)) = IZR (a + b)) by (rewrite A2, B2, <- plus_IZR; apply rnd_F, F64_IZR; lia).
    destruct (fadd_ok (of_Z a) (of_Z b) A1 B1) as [C1 C2]; [|split; [exact C1|congruence]]. rewrite E. destruct (of_Z_ok (a + b)) as [_ D]; [lia|]. rewrite <- D. apply val_lt. }
  destruct S as [S1 S2].
  assert (T : number (fsub (fadd (of_Z a) (of_Z b)) (of_Z 4))).
  { assert (E : rnd (val (fadd (of_Z a) (of_Z b)) - val (of_Z 4)) = IZR (a + b - 4)) by (rewrite S2, F2, <- minus_IZR; apply rnd_F, F64_IZR; lia).
    destruct (fsub_ok (fadd (of_Z a) (of_Z b)) (of_Z 4) S1 F1) as [C1 C2]; [|exact C1]. rewrite E. destruct (of_Z_ok (a + b - 4)) as [_ D]; [lia|]. rewrite <- D. apply val_lt. }
  assert (X : exact [of_Z a; of_Z b] sum4 = IZR (a + b - 4)) by (cbn [exact sum4 nth_error]; rewrite A2, B2, F2, <- plus_IZR, <- minus_IZR; reflexivity).
  split; [|split; [exact X|]].
  - cbn [regular sum4 xeval nth_error bind]. repeat split; eauto.
  - cbn [exact tolerance sum4 nth_error]. rewrite A2, B2, F2, <- (plus_IZR a b), <- (minus_IZR (a + b) 4). unfold rounding.
    assert (E1 : bpow radix2 (-53) < / 1000000). { change (-53)%Z with (Z.opp 53). rewrite bpow_opp. apply Rinv_lt; [lra|]. cbn. lra. }
    assert (E2 : bpow radix2 (-1075) <= bpow radix2 (-53)) by (apply bpow_le; lia). pose proof (bpow_gt_0 radix2 (-1075)).
    assert (M1 : Rabs (IZR (a + b)) <= 200) by (rewrite <- abs_IZR; apply IZR_le; lia). assert (M2 : Rabs (IZR (a + b - 4)) <= 204) by (rewrite <- abs_IZR; apply IZR_le; lia).
    pose proof (Rabs_pos (IZR (a + b))). pose proof (Rabs_pos (IZR (a + b - 4))). pose proof (bpow_gt_0 radix2 (-53)). set (u := bpow radix2 (-53)) in *. set (n := bpow radix2 (-1075)) in *. nra.
Qed.
Example C120_nonvacuous : (forall x e, In x [[of_Z 1; of_Z 2]; [of_Z 3; of_Z 2]] -> In e [sum4] -> regular x e /\ tolerance x e < Rabs (exact x e)) /\
  indicator_constraints_f [sum4] [[of_Z 1; of_Z 2]; [of_Z 3; of_Z 2]] = Ok [of_Z 1; of_Z 0].
Proof.
  split.
  - intros x e [<-|[<-|[]]] [<-|[]].
    + destruct (sum4_regular 1 2) as (A & B & C); [lia|lia|]. split; [exact A|]. rewrite B. change (1 + 2 - 4)%Z with (-1)%Z. rewrite Rabs_left by lra. lra.
    + destruct (sum4_regular 3 2) as (A & B & C); [lia|lia|]. split; [exact A|]. rewrite B. change (3 + 2 - 4)%Z with 1%Z. rewrite Rabs_pos_eq by lra. lra.
  - unfold indicator_constraints_f. cbn [mapM]. replace (satisfies [sum4] [of_Z 1; of_Z 2]) with (Ok true) by (vm_compute; reflexivity).
    replace (satisfies [sum4] [of_Z 3; of_Z 2]) with (Ok false) by (vm_compute; reflexivity). reflexivity.
Qed.
