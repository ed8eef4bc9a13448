(** C139: runs under constraints in double precision. *)
From Coq Require Import List ZArith Bool Reals Lra Lia.
From Flocq Require Import Core IEEE754.BinarySingleNaN.
From Verif.Model Require Import Py Float FloatRow FloatStop FloatCons FloatAcq FloatAnchor FloatPipe FloatReject FloatMask.
From Verif.Spec Require Import FloatSpec FloatAcqSpec FloatRowSpec FloatAnchorSpec FloatConsSpec FloatPipeSpec FloatRejectSpec FloatMaskSpec.
From Verif.Proof Require Import Num FloatP FloatStopP FloatConsP FloatRowP FloatAcqP FloatAnchorP FloatDupP FloatPipeP FloatRejectP FloatMaskP.
From Verif.Props Require Import PFloatCons PFloatAnchor PFloatPipe PFloatReject.
Import ListNotations.
Local Open Scope nat_scope.

(** The suggestion passes every constraint. *)
Theorem C139_suggestion : forall ks es known a row, fspace ks -> widths ks -> several ks -> ordinary ks a -> careful ks es a ->
  suggest_f ks known (a_score a) (a_argsort a) (a_local a) (a_design a) = Ok row -> kept es row.
Proof.
  intros ks es known a row SP WI NU (_ & _ & NN) (raw & cost & SC & C & (fuel & u & c & n & FA & D) & W & NW) S.
  destruct (C138_rows _ _ _ _ _ _ _ SP WI FA D) as (_ & CF & K). pose proof (samples_fine _ _ _ _ _ _ _ D) as FI. destruct (suggested ks known _ _ _ _ row S) as (X & x0 & x & k & EX & I & R & Z).
  rewrite Forall_forall in CF, K, FI. apply mapM_ok_Forall2 in EX.
  assert (Q : exists row0, In row0 (a_design a) /\ unzip_f ks row0 = Ok x0).
  { clear - EX I. induction EX as [|r y des X H E IH]; [destruct I|]. destruct I as [->|I]; [exists r; split; [now left|exact H]|]. destruct (IH I) as (r0 & J & G). exists r0. split; [now right|exact G]. }
  destruct Q as (row0 & I0 & U). destruct (round_trip ks (proj2 (proj2 SP)) row0 x0 (CF _ I0) (FI _ I0) U) as [Z0 B0]. pose proof (x_z_zip ks x0 row0 NU B0 Z0) as XZ0. pose proof (W row0 x0 I0 U) as WW.
  destruct R as [->|R]; [rewrite Z0 in Z; apply Ok_inj in Z; subst row; now apply K|].
  assert (B : fblocks fvalid ks x).
  { unfold rounded_local in R. destruct (NN k x0) as (y & Ey & Ry). rewrite Ey in R. cbn [bind] in R. destruct (round_valid ks y SP Ry) as (r & Er & Vr). rewrite Er in R. apply Ok_inj in R. now subst r. }
  assert (N0 : nan_p (a_score a x0) = false).
  { rewrite SC. unfold masked_f. rewrite XZ0. cbn [bind]. rewrite (kept_satisfies es row0 (K row0 I0)). destruct WW as (N & _ & _). destruct (C x0) as [_ P]. destruct (weighted_in (raw x0) (cost x0) N) as [Q _]; [lra|exact Q]. }
  destruct (NW k x0 x R N0) as [N1 G]. rewrite SC in N1, G. exact (not_worse_kept ks es raw cost x0 x row0 C XZ0 (K row0 I0) WW N1 G row (x_z_zip ks x row NU B Z)).
Qed.
Print Assumptions C139_suggestion.
(** So does every row a run evaluates, from an initial design drawn under the constraints on: in exact arithmetic none violates a constraint by more than the
    tolerance, and none a comparison of columns and numbers. *)
Theorem C139_run : forall ks es dd A n X X', fspace ks -> widths ks -> several ks -> (forall Z, ordinary ks (A Z) /\ careful ks es (A Z)) -> drawn ks es X ->
  acquire_f ks dd A n X = Ok X' ->
  length X' = length X + n /\ Forall (configuration ks) X' /\ Forall (kept es) X' /\
  forall row e, In row X' -> In e es -> (regular row e -> (exact row e <= tolerance row e)%R) /\
    (forall a b, e = XSub a b -> leaf a -> leaf b -> (forall v, a = XNum v \/ b = XNum v -> number v) -> (exact row a <= exact row b)%R).
Proof.
  intros ks es dd A n X X' SP WI NU OC (fuel & u & c & m & FA & D) E. destruct (C138_rows _ _ _ _ _ _ _ SP WI FA D) as (_ & CF & K).
  destruct (C132_run ks dd A n X X' SP (fun Z => proj1 (OC Z)) CF E) as ((new & -> & L) & CF' & _).
  assert (K' : Forall (kept es) (X ++ new)).
  { clear CF' L. revert X E K CF D. enough (G : forall n X Y, acquire_f ks dd A n X = Ok Y -> Forall (kept es) X -> Forall (kept es) Y) by (intros X E K _ _; exact (G n X _ E K)).
    clear - OC SP WI NU. induction n as [|n IH]; intros X Y E K; cbn [acquire_f] in E; [apply Ok_inj in E; now subst Y|].
    destruct (suggest_f _ _ _ _ _ _) as [row|] eqn:S; [|discriminate E]. cbn [bind] in E. apply (IH _ _ E). apply Forall_app. split; [exact K|]. constructor; [|constructor].
    exact (C139_suggestion ks es _ (A X) row SP WI NU (proj1 (OC X)) (proj2 (OC X)) S). }
  split; [rewrite app_length; lia|]. split; [exact CF'|]. split; [exact K'|]. intros row e Ir Ie. rewrite Forall_forall in K', CF'. destruct (K' row Ir e Ie) as (v & Ev & Lv).
  assert (S : satisfies [e] row = Ok true) by (cbn [satisfies]; rewrite Ev; cbn [bind]; apply fle_zero in Lv; now rewrite Lv).
  split; [intros R; now apply (C120_margin row e true R S)|]. intros a b -> La Lb NL. apply (C120_difference row a b true La Lb); [|exact S|reflexivity].
  assert (G : forall d, leaf d -> (forall v0, d = XNum v0 -> number v0) -> forall w, xeval row d = Ok w -> number w).
  { intros d Ld Nd w Ew. destruct d as [w0|i| | | | | | |]; try contradiction; cbn [xeval] in Ew; [injection Ew as <-; now apply Nd|].
    destruct (nth_error row i) as [x|] eqn:Ex; [|discriminate Ew]. injection Ew as <-. apply (configuration_numbers ks row (proj1 (proj2 SP)) (CF' row Ir)). eapply nth_error_In; exact Ex. }
  intros w [Ew|Ew]; (eapply G; [| |exact Ew]; auto; intros v0 Hv; eapply NL; eauto).
Qed.
Print Assumptions C139_run.
(** On continuous spaces it is enough that the local optimizer stays in the box and does not end at a worse point than its start. *)
Theorem C139_continuous : forall ks score local, fspace ks -> continuous ks -> (forall k x0 x, local k x0 = Ok x -> configuration ks x) -> never_worse score local ->
  never_worse score (rounded_local ks local).
Proof.
  intros ks score local (ND & W & _) C B NW k x0 x R. unfold rounded_local in R. destruct (local k x0) as [y|] eqn:E; [|discriminate R]. cbn [bind] in R.
  rewrite (continuous_round ks C W ND y (B k x0 y E)) in R. apply Ok_inj in R. subst y. exact (NW k x0 x E).
Qed.
Print Assumptions C139_continuous.

(** One variable in [0, 2] and the constraint x0 - 1 <= 0. *)
Definition box : list fkind := [FCont (of_Z 0) (of_Z 2)].
Definition upto (b : Z) : fexpr := XSub (XCol 0) (XNum (of_Z b)).
Definition always (z : Z) : list float -> float := fun _ => of_Z z.
Lemma box_space : fspace box /\ widths box /\ several box /\ continuous box.
Proof.
  destruct (of_Z_ok 0) as [N0 V0]; [lia|]. destruct (of_Z_ok 2) as [N2 V2]; [lia|].
  split; [|split; [|split]].
  - split; [discriminate|]. split; [constructor; [|constructor]|intros n [H|[]]; discriminate H]. split; [exact N0|]. split; [exact N2|]. cbn [fst snd]. rewrite V0, V2. lra.
  - intros lo hi [H|[]]. injection H as <- <-. vm_compute. reflexivity.
  - intros n [H|[]]. discriminate H.
  - intros k [<-|[]]. eauto.
Qed.
Lemma box_drawn : drawn box [upto 1] [[of_Z 0]].
Proof.
  exists 2, (fun _ _ _ => of_Z 0), (fun _ _ _ => 0), 1. split; [|vm_compute; reflexivity]. split; [|split].
  - intros t i k. destruct (of_Z_ok 0) as [A B]; [lia|]. split; [exact A|]. rewrite B. lra.
  - intros t i [|[|k]] d H; discriminate H.
  - intros t i [|[|k]] d H; discriminate H.
Qed.
Lemma score_cases ks es z x : x_z ks x = Ok x -> (z = 0 \/ z = 1)%Z -> nan_p (masked_f ks es (always z) (always 1) x) = true \/ satisfies es x = Ok false /\ val (masked_f ks es (always z) (always 1) x) = 0%R /\ number (masked_f ks es (always z) (always 1) x) \/
  satisfies es x = Ok true /\ val (masked_f ks es (always z) (always 1) x) = (- IZR z)%R /\ number (masked_f ks es (always z) (always 1) x).
Proof.
  intros XZ Z. unfold masked_f, always. rewrite XZ. cbn [bind]. destruct (of_Z_ok 1) as [N1 V1]; [lia|]. destruct (of_Z_ok z) as [Nz Vz]; [lia|]. destruct (satisfies es x) as [[|]|]; [right; right|right; left|now left].
  - split; [reflexivity|]. destruct (weighted_in (of_Z z) (of_Z 1) Nz) as [_ H]; [rewrite V1; lra|]. assert (N : number (weighted_f (of_Z z) (indicator_of true) (of_Z 1))) by (destruct Z as [-> | ->]; vm_compute; reflexivity).
    split; [|exact N]. rewrite (H N), Vz, V1. replace (- (IZR z / 1))%R with (IZR (- z)) by (rewrite opp_IZR; field). rewrite (proj1 (small_exact (- z) ltac:(lia))). apply opp_IZR.
  - split; [reflexivity|]. destruct (weighted_out (of_Z z) (of_Z 1) Nz) as [A B]; [rewrite V1; lra|]. auto.
Qed.
(** Rounding to a discrete value may leave the region, although the local optimizer did not: the values 0 and 10, the constraint x0 <= 6 and 11/2. *)
Definition two_values : list fkind := [FDisc [of_Z 0; of_Z 10]].
Definition to_point (x : float) : nat -> list float -> res (list float) := fun _ _ => Ok [x].
Theorem C139_rounding_refuted : let score := masked_f two_values [upto 6] (always 1) (always 1) in let local := to_point (lit 11 (-1)) in
  never_worse score local /\ kept [upto 6] [lit 11 (-1)] /\ kept [upto 6] [of_Z 0] /\ worthwhile (always 1) (always 1) [of_Z 0] /\
  exists row, suggest_f two_values None score sort_positions local [[of_Z 0]] = Ok row /\ ~ kept [upto 6] row.
Proof.
  intros score local. assert (W : worthwhile (always 1) (always 1) [of_Z 0]).
  { unfold worthwhile, always. destruct (of_Z_ok 1) as [N1 V1]; [lia|]. split; [exact N1|]. rewrite V1. split; [lra|]. replace (1 / 1)%R with 1%R by field. change (rnd 1 <> 0)%R. rewrite (proj1 (small_exact 1 ltac:(lia))). lra. }
  split; [|split; [|split; [|split; [exact W|]]]].
  - intros k x0 x E N0. apply Ok_inj in E. subst x. destruct (score_cases two_values [upto 6] 1 [lit 11 (-1)] eq_refl (or_intror eq_refl)) as [H|[(H & _)|(_ & V & N)]]; [vm_compute in H; discriminate H|vm_compute in H; discriminate H|].
    fold score in V, N. split; [now apply not_nan|]. destruct (score_cases two_values [upto 6] 1 x0 eq_refl (or_intror eq_refl)) as [H|[(_ & V0 & M0)|(_ & V0 & M0)]]; [fold score in H; congruence| |]; fold score in V0, M0; rewrite flt_ok by assumption; apply Rlt_bool_false; lra.
  - apply (satisfies_kept [upto 6] _ true); [vm_compute; reflexivity|reflexivity].
  - apply (satisfies_kept [upto 6] _ true); [vm_compute; reflexivity|reflexivity].
  - assert (G : match suggest_f two_values None score sort_positions local [[of_Z 0]] with Ok row => match satisfies [upto 6] row with Ok b => negb b | Raise _ => false end | Raise _ => false end = true) by (vm_compute; reflexivity).
    destruct (suggest_f two_values None score sort_positions local [[of_Z 0]]) as [row|]; [|discriminate G]. exists row. split; [reflexivity|]. intros K. rewrite (kept_satisfies _ _ K) in G. discriminate G.
Qed.
Print Assumptions C139_rounding_refuted.
(** And where the acquisition is computed as 0 (as expected improvement is far above the minimum) a local optimizer may leave the region at no loss. *)
Theorem C139_plateau_refuted : let score := masked_f box [upto 1] (always 0) (always 1) in let local := to_point (of_Z 2) in
  never_worse score (rounded_local box local) /\ drawn box [upto 1] [[of_Z 0]] /\ exists row, suggest_f box None score sort_positions local [[of_Z 0]] = Ok row /\ configuration box row /\ ~ kept [upto 1] row.
Proof.
  intros score local. assert (R : rounded_local box local 0 [] = Ok [of_Z 2]).
  { unfold rounded_local, local, to_point. cbn [bind]. apply continuous_round; [apply box_space|apply box_space|discriminate|]. constructor; [|constructor]. apply (value_in 0 2 2); lia. }
  split; [|split; [exact box_drawn|]].
  - intros k x0 x E N0. assert (x = [of_Z 2]) as -> by (apply Ok_inj; rewrite <- R, <- E; reflexivity).
    destruct (score_cases box [upto 1] 0 [of_Z 2] eq_refl (or_introl eq_refl)) as [H|[(_ & V & N)|(H & _)]]; [vm_compute in H; discriminate H| |vm_compute in H; discriminate H]. fold score in V, N.
    split; [now apply not_nan|]. destruct (score_cases box [upto 1] 0 x0 eq_refl (or_introl eq_refl)) as [H|[(_ & V0 & M0)|(_ & V0 & M0)]]; [fold score in H; congruence| |]; fold score in V0, M0; rewrite flt_ok by assumption; apply Rlt_bool_false; lra.
  - assert (G : match suggest_f box None score sort_positions local [[of_Z 0]] with Ok row => match row with [y] => feq y (of_Z 2) | _ => false end | Raise _ => false end = true) by (vm_compute; reflexivity).
    assert (G' : match suggest_f box None score sort_positions local [[of_Z 0]] with Ok row => match satisfies [upto 1] row with Ok b => negb b | Raise _ => false end | Raise _ => false end = true) by (vm_compute; reflexivity).
    destruct (suggest_f box None score sort_positions local [[of_Z 0]]) as [row|]; [|discriminate G]. exists row. split; [reflexivity|]. split; [|intros K; rewrite (kept_satisfies _ _ K) in G'; discriminate G'].
    destruct row as [|y [|]]; try discriminate G. constructor; [|constructor]. destruct (of_Z_ok 2) as [N2 V2]; [lia|]. destruct (of_Z_ok 0) as [N0 V0]; [lia|].
    assert (Ny : number y) by (destruct y as [?|?| |? ? ? ?]; try reflexivity; [destruct s|]; vm_compute in G; discriminate G).
    assert (Vy : val y = 2%R). { rewrite feq_ok in G by assumption. rewrite V2 in G. destruct (Req_bool_spec (val y) 2); [assumption|discriminate G]. }
    split; [exact Ny|]. cbn [fst snd]. rewrite V0, V2, Vy. lra.
Qed.
Print Assumptions C139_plateau_refuted.

(** A run that meets the hypotheses: the acquisition 1 and a local optimizer that goes to 0. *)
Definition calm : list (list float) -> acquiring := fun _ => mk_acquiring (masked_f box [upto 1] (always 1) (always 1)) sort_positions (to_point (of_Z 0)) [[of_Z 0]].
Example C139_nonvacuous : fspace box /\ widths box /\ several box /\ (forall Z, ordinary box (calm Z) /\ careful box [upto 1] (calm Z)) /\ drawn box [upto 1] [[of_Z 0]] /\
  acquire_f box false calm 2 [[of_Z 0]] = Ok [[of_Z 0]; [of_Z 0]; [of_Z 0]].
Proof.
  destruct box_space as (A & B & C & D). assert (V0 : fvalue (FCont (of_Z 0) (of_Z 2)) (of_Z 0)) by (apply (value_in 0 2 0); lia).
  split; [exact A|]. split; [exact B|]. split; [exact C|]. split; [|split; [exact box_drawn|vm_compute; reflexivity]]. intros Z. split.
  - split; [constructor; [constructor; [exact V0|constructor]|constructor]|]. split; [exact sort_positions_sorts|]. intros k x0. eexists. split; [reflexivity|].
    change [of_Z 0] with ([of_Z 0] ++ []). constructor; [|constructor]. split; [reflexivity|]. intros x [<-|[]]. reflexivity.
  - exists (always 1), (always 1). split; [reflexivity|]. destruct (of_Z_ok 1) as [N1 V1]; [lia|]. split; [intros x; split; [exact N1|unfold always; rewrite V1; lra]|]. split; [exact box_drawn|].
    split; [intros row x [<-|[]] E; apply Ok_inj in E; subst x; apply C139_rounding_refuted|]. apply C139_continuous; auto.
    + intros k x0 x E. apply Ok_inj in E. subst x. constructor; [exact V0|constructor].
    + intros k x0 x E M. apply Ok_inj in E. subst x. cbn [calm a_score] in *. destruct (score_cases box [upto 1] 1 [of_Z 0] eq_refl (or_intror eq_refl)) as [H|[(H & _)|(_ & V & N)]]; [vm_compute in H; discriminate H|vm_compute in H; discriminate H|].
      split; [now apply not_nan|]. destruct (score_cases box [upto 1] 1 x0 eq_refl (or_intror eq_refl)) as [H|[(_ & W0 & M0)|(_ & W0 & M0)]]; [congruence| |]; rewrite flt_ok by assumption; apply Rlt_bool_false; lra.
Qed.
