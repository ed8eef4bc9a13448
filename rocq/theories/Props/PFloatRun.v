(** C135: a whole run in double precision.  Specification: Spec/FloatRunSpec.v, Spec/FloatPipeSpec.v, Spec/FloatReportSpec.v.  Model: Model/FloatRun.v. *)
From Coq Require Import Reals List ZArith Bool Lia Lra Permutation.
From Flocq Require Import Core IEEE754.BinarySingleNaN.
From Verif.Model Require Import Py Float FloatRow FloatPipe FloatStop FloatReport FloatRun.
From Verif.Spec Require Import FloatSpec FloatRowSpec FloatPipeSpec FloatStopSpec FloatDupSpec FloatReportSpec FloatRunSpec.
From Verif.Proof Require Import FloatP FloatRowP FloatStopP FloatReportP.
From Verif.Props Require Import PFloatAnchor PFloatPipe PFloatReport.
Import ListNotations.
Local Open Scope nat_scope.

Lemma suggest_step E X Y a x : ordinary_run E -> Forall (configuration (v_kinds E)) X -> v_fit E X Y = Some a ->
  suggest_f (v_kinds E) (if v_dedup E then Some X else None) (a_score a) (a_argsort a) (a_local a) (a_design a) = Ok x ->
  configuration (v_kinds E) x /\ (v_dedup E = true -> forall r, In r X -> ~ same_values r x).
Proof.
  intros [SP OR] CX FT SG. destruct (C132_suggestion (v_kinds E) (if v_dedup E then Some X else None) a SP (OR X Y a FT)) as [(row & R & C & D)|(R & _)].
  - intros Z HZ. destruct (v_dedup E); [injection HZ as <-; exact CX|discriminate HZ].
  - rewrite SG in R. injection R as <-. split; [exact C|]. intros DD r I. rewrite DD in D. exact (D X r eq_refl I).
  - rewrite SG in R. discriminate R.
Qed.
Lemma leaves_budget total b eps (n : nat) X : number b -> (val b <= INR n)%R -> (Z.of_nat n <= 2 ^ 53)%Z -> leaves total b eps (Z.of_nat n) X = true.
Proof.
  intros NB L P. unfold leaves. destruct (of_Z_ok (Z.of_nat n)) as [N V]; [lia|]. rewrite fle_ok by assumption. rewrite V, <- INR_IZR_INZ. rewrite Rle_bool_true by exact L. reflexivity.
Qed.
Lemma loop_ok E mi mt eps : ordinary_run E -> forall fuel (n : nat) cum X Y X' Y', Forall (configuration (v_kinds E)) X ->
  loop_f fuel E mi mt eps (Z.of_nat n) cum X Y = Some (Ok (X', Y')) ->
  exists new ys, X' = X ++ new /\ Y' = Y ++ ys /\ answers (v_objective E) new ys /\ Forall (configuration (v_kinds E)) new /\
    (v_dedup E = true -> NoDup (map (map val) X) -> NoDup (map (map val) X')) /\
    forall k, number mi -> (val mi <= INR k)%R -> (Z.of_nat k <= 2 ^ 53)%Z -> n <= k -> n + length new <= k.
Proof.
  intros OR. induction fuel as [|fuel IH]; intros n cum X Y X' Y' CX H; [discriminate H|]. cbn [loop_f] in H.
  assert (STOP : Some (Ok (X, Y)) = Some (Ok (X', Y')) -> exists new ys, X' = X ++ new /\ Y' = Y ++ ys /\ answers (v_objective E) new ys /\ Forall (configuration (v_kinds E)) new /\
    (v_dedup E = true -> NoDup (map (map val) X) -> NoDup (map (map val) X')) /\
    forall k, number mi -> (val mi <= INR k)%R -> (Z.of_nat k <= 2 ^ 53)%Z -> n <= k -> n + length new <= k).
  { intros K. injection K as <- <-. exists [], []. rewrite !app_nil_r. split; [reflexivity|]. split; [reflexivity|]. split; [constructor|]. split; [constructor|]. split; [auto|]. intros k _ _ _ L. cbn. lia. }
  destruct (enters mt cum); [|now apply STOP]. destruct (v_fit E X Y) as [a|] eqn:FT; [|now apply STOP]. destruct (leaves (v_total E) mi eps (Z.of_nat n) X) eqn:LV; [now apply STOP|]. clear STOP.
  destruct (suggest_f _ _ _ _ _ _) as [x|e] eqn:SG; [|discriminate H]. destruct (v_objective E x) as [y|e] eqn:OB; [|discriminate H].
  destruct (suggest_step E X Y a x OR CX FT SG) as (Cx & Dx). replace (Z.of_nat n + 1)%Z with (Z.of_nat (Datatypes.S n)) in H by lia.
  destruct (IH (Datatypes.S n) (cum_time (v_clock E (Z.of_nat n)) (v_zero E)) (X ++ [x]) (Y ++ [y]) X' Y') as (new & ys & EX & EY & AN & CN & ND & BD); [apply Forall_app; split; [exact CX|now constructor]|exact H|].
  exists (x :: new), (y :: ys). rewrite EX, EY, <- !app_assoc. split; [reflexivity|]. split; [reflexivity|]. split; [now constructor|]. split; [now constructor|]. split.
  - intros DD NX. rewrite EX, <- app_assoc in ND. apply ND; [exact DD|]. rewrite map_app. cbn [map]. apply (Permutation_NoDup (l := map val x :: map (map val) X)); [apply Permutation_cons_append|]. constructor; [|exact NX]. intros I. apply in_map_iff in I as (r & Er & Ir). exact (Dx DD r Ir Er).
  - intros k NB VB PK L. destruct (Nat.eq_dec n k) as [->|NE]; [rewrite (leaves_budget _ mi eps k X NB VB PK) in LV; discriminate LV|]. specialize (BD k NB VB PK). cbn [length]. lia.
Qed.

Lemma answers_app f X1 Y1 X2 Y2 : answers f X1 Y1 -> answers f X2 Y2 -> answers f (X1 ++ X2) (Y1 ++ Y2).
Proof. apply Forall2_app. Qed.
Lemma mapM_answers f X Y : mapM f X = Ok Y <-> answers f X Y.
Proof.
  split.
  - revert Y. induction X as [|x X IH]; intros Y H; cbn [mapM] in H; [injection H as <-; constructor|]. destruct (f x) as [y|e] eqn:F; cbn [bind] in H; [|discriminate H].
    destruct (mapM f X) as [ys|e] eqn:M; cbn [bind] in H; [|discriminate H]. injection H as <-. constructor; [exact F|]. now apply IH.
  - induction 1 as [|x y X Y F H IH]; [reflexivity|]. cbn [mapM]. rewrite F. cbn [bind]. rewrite IH. reflexivity.
Qed.
Lemma run_ok fuel E mi mt eps X0 Y0 X Y r : ordinary_run E -> Forall (configuration (v_kinds E)) X0 -> run_f fuel E mi mt eps X0 Y0 = Some (Ok (X, Y, r)) ->
  exists Yi new ys, match Y0 with Some Y0 => Yi = Y0 | None => answers (v_objective E) X0 Yi end /\ X = X0 ++ new /\ Y = Yi ++ ys /\ answers (v_objective E) new ys /\
    Forall (configuration (v_kinds E)) X /\ (v_dedup E = true -> NoDup (map (map val) X0) -> NoDup (map (map val) X)) /\
    (forall k, number (fst (limits_f mi mt)) -> (val (fst (limits_f mi mt)) <= INR k)%R -> (Z.of_nat k <= 2 ^ 53)%Z -> length new <= k) /\ compute_results_f X Y = Ok r.
Proof.
  intros OR CX H. unfold run_f in H. destruct (match Y0 with Some Y1 => Ok Y1 | None => mapM (v_objective E) X0 end) as [Yi|e] eqn:EY; [|discriminate H].
  destruct (loop_f fuel E _ _ eps 0 f0 X0 Yi) as [[[X' Y']|e]|] eqn:LP; [|discriminate H|discriminate H]. cbn [fst snd] in H.
  destruct (compute_results_f X' Y') as [r'|e] eqn:CR; cbn [bind] in H; [|discriminate H]. injection H as <- <- <-.
  destruct (loop_ok E _ _ eps OR fuel 0 f0 X0 Yi X' Y' CX LP) as (new & ys & EX & EY' & AN & CN & ND & BD). exists Yi, new, ys. split.
  - destruct Y0 as [Y0|]; [injection EY as <-; reflexivity|]. now apply mapM_answers.
  - split; [exact EX|]. split; [exact EY'|]. split; [exact AN|]. split; [rewrite EX; apply Forall_app; split; assumption|]. split; [exact ND|]. split; [|exact CR].
    intros k NB VB PK. specialize (BD k NB VB PK). lia.
Qed.

(** Everything evaluated is a configuration; earlier rows and values stay, and each new value is the objective at its row; with de-duplication no configuration is
    evaluated twice; the budget is kept, a fractional one rounded up; without any limit nothing is evaluated. *)
Theorem C135_evaluations : forall fuel E max_iter max_time eps X0 Y0 X Y r, ordinary_run E -> Forall (configuration (v_kinds E)) X0 ->
  run_f fuel E max_iter max_time eps X0 Y0 = Some (Ok (X, Y, r)) ->
  Forall (configuration (v_kinds E)) X /\ (v_dedup E = true -> NoDup (map (map val) X0) -> NoDup (map (map val) X)) /\
  exists new ys, X = X0 ++ new /\ answers (v_objective E) new ys /\ (forall Y1, Y0 = Some Y1 -> Y = Y1 ++ ys) /\ (Y0 = None -> answers (v_objective E) X Y) /\
    (forall b k, max_iter = Some b -> number b -> (val b <= INR k)%R -> (Z.of_nat k <= 2 ^ 53)%Z -> length new <= k) /\ (max_iter = None -> max_time = None -> new = []).
Proof.
  intros fuel E mi mt eps X0 Y0 X Y r OR CX H. destruct (run_ok fuel E mi mt eps X0 Y0 X Y r OR CX H) as (Yi & new & ys & HY & EX & EY & AN & CF & ND & BD & _).
  split; [exact CF|]. split; [exact ND|]. exists new, ys. split; [exact EX|]. split; [exact AN|]. split; [intros Y1 ->; now rewrite <- HY|]. split; [intros ->; rewrite EX, EY; now apply answers_app|]. split.
  - intros b k -> NB VB PK. apply BD; [destruct mt; exact NB|destruct mt; exact VB|exact PK].
  - intros -> ->. cbn [limits_f fst] in BD. destruct (of_Z_ok 0) as [N V]; [lia|]. assert (L : length new <= 0) by (apply BD; [exact N|rewrite V; cbn; lra|lia]). destruct new; [reflexivity|cbn in L; lia].
Qed.
Print Assumptions C135_evaluations.
(** The budget is used up: without a time limit, with the distance rule off and fits that succeed, a run that ends with a report has made as many acquisitions as asked for. *)
Theorem C135_full_budget : forall fuel E b eps X0 Y0 X Y r k, ordinary_run E -> Forall (configuration (v_kinds E)) X0 -> (forall X Y, v_fit E X Y <> None) ->
  (forall l, added l (v_total E l)) -> below eps -> (forall i, number (cum_time (v_clock E i) (v_zero E))) -> number b -> (INR k - 1 < val b)%R -> (Z.of_nat k <= 2 ^ 53)%Z ->
  run_f fuel E (Some b) None eps X0 Y0 = Some (Ok (X, Y, r)) -> length X0 + k <= length X.
Proof.
  intros fuel E b eps X0 Y0 X Y r k OR CX NF TA BE CK NB VB PK H. unfold run_f in H. destruct (match Y0 with Some Y1 => Ok Y1 | None => mapM (v_objective E) X0 end) as [Yi|e]; [|discriminate H].
  cbn [limits_f fst snd] in H. destruct (loop_f fuel E b _ eps 0 f0 X0 Yi) as [[[X' Y']|e]|] eqn:LP; [|discriminate H|discriminate H]. cbn [fst snd] in H.
  destruct (compute_results_f X' Y') as [r'|e]; cbn [bind] in H; [|discriminate H]. injection H as <- <- <-.
  assert (G : forall fuel n cum X Y, number cum -> loop_f fuel E b (B754_infinity false) eps (Z.of_nat n) cum X Y = Some (Ok (X', Y')) -> n <= k -> length X + k <= length X' + n).
  { clear -NF TA BE CK NB VB PK. induction fuel as [|fuel IH]; intros n cum X Y NC H L; [discriminate H|]. cbn [loop_f] in H.
    assert (EN : enters (B754_infinity false) cum = true) by (unfold enters, flt; unfold number in NC; destruct cum as [s|s| |s m e Bd]; try discriminate NC; reflexivity). rewrite EN in H.
    destruct (v_fit E X Y) as [a|] eqn:FT; [|destruct (NF X Y FT)]. rewrite (leaves_below _ b eps (Z.of_nat n) X TA BE) in H. destruct (of_Z_ok (Z.of_nat n)) as [N V]; [lia|]. rewrite fle_ok in H by assumption. rewrite V, <- INR_IZR_INZ in H.
    destruct (Nat.eq_dec n k) as [->|NK].
    - destruct (Rle_bool (val b) (INR k)); [injection H as <- <-; lia|]. destruct (suggest_f _ _ _ _ _ _) as [x|e]; [|discriminate H]. destruct (v_objective E x) as [y|e]; [|discriminate H].
      assert (M : forall fuel num cum X Y, loop_f fuel E b (B754_infinity false) eps num cum X Y = Some (Ok (X', Y')) -> length X <= length X').
      { clear. induction fuel as [|fuel IH]; intros num cum X Y H; [discriminate H|]. cbn [loop_f] in H. destruct (enters _ cum); [|injection H as <- <-; lia]. destruct (v_fit E X Y) as [a|]; [|injection H as <- <-; lia].
        destruct (leaves _ _ _ _ _); [injection H as <- <-; lia|]. destruct (suggest_f _ _ _ _ _ _) as [x|e]; [|discriminate H]. destruct (v_objective E x) as [y|e]; [|discriminate H]. apply IH in H. rewrite app_length in H. lia. }
      apply M in H. rewrite app_length in H. lia.
    - rewrite Rle_bool_false in H. 2:{ apply Rle_lt_trans with (INR k - 1)%R; [|exact VB]. assert (Q : (INR (Datatypes.S n) <= INR k)%R) by (apply le_INR; lia). rewrite S_INR in Q. lra. }
      destruct (suggest_f _ _ _ _ _ _) as [x|e]; [|discriminate H]. destruct (v_objective E x) as [y|e]; [|discriminate H]. replace (Z.of_nat n + 1)%Z with (Z.of_nat (Datatypes.S n)) in H by lia.
      apply IH in H; [|apply CK|lia]. rewrite app_length in H. cbn [length] in H. lia. }
  specialize (G fuel 0 f0 X0 Yi (proj1 f0_ok) LP). lia.
Qed.
Print Assumptions C135_full_budget.
(** Minimising: x_opt was evaluated, fx_opt is exactly f there, and no evaluated row has a smaller value. *)
Theorem C135_minimum : forall fuel E max_iter max_time eps X0 X Y Y_best x_opt fx_opt, ordinary_run E -> never_nan E -> v_maximize E = false -> X0 <> [] ->
  Forall (configuration (v_kinds E)) X0 -> run_f fuel E max_iter max_time eps X0 None = Some (Ok (X, Y, (Y_best, x_opt, fx_opt))) ->
  In x_opt X /\ (exists v, v_f E x_opt = Ok v /\ same_number fx_opt v) /\ forall x w, In x X -> v_f E x = Ok w -> at_most fx_opt w.
Proof.
  intros fuel E mi mt eps X0 X Y yb x m OR NN MX NE CX H. destruct (run_ok fuel E mi mt eps X0 None X Y _ OR CX H) as (Yi & new & ys & HY & EX & EY & AN & CF & _ & _ & CR).
  assert (AX : answers (v_f E) X Y) by (unfold v_objective in HY, AN; rewrite MX in HY, AN; rewrite EX, EY; now apply answers_app). clear HY AN EY.
  assert (HN : forall y, In y Y -> nan_p y = false). { clear CR. rewrite Forall_forall in CF. clear -AX CF NN. induction AX as [|a b X Y F A IH]; [intros y []|]. intros y [<-|I]; [exact (NN a b (CF a (or_introl eq_refl)) F)|]. apply IH; [intros z Z; apply CF; now right|exact I]. }
  assert (LN : length X = length Y) by (clear -AX; induction AX; cbn; congruence). assert (NX : X <> []) by (rewrite EX; destruct X0; [congruence|discriminate]).
  assert (NY : Y <> []) by (intros ->; destruct X; [congruence|discriminate LN]).
  destruct (C134_report _ X Y LN NY HN) as (yb' & x' & m' & i & y & CR' & RX & RY & SM & AM & _). rewrite CR in CR'. injection CR' as <- <- <-.
  assert (AT : forall j a, nth_error X j = Some a -> exists b, nth_error Y j = Some b /\ v_f E a = Ok b).
  { clear -AX. induction AX as [|a b X Y F A IH]; intros [|j] c J; cbn in *; try discriminate; [injection J as <-; eauto|auto]. }
  split; [eapply nth_error_In; eauto|]. split.
  - destruct (AT i x RX) as (b & B & F). exists b. split; [exact F|]. rewrite RY in B. apply Some_eq in B. rewrite <- B. exact SM.
  - intros a w I F. apply In_nth_error in I as (j & J). destruct (AT j a J) as (b & B & F'). rewrite F in F'. injection F' as ->. apply AM. eapply nth_error_In; eauto.
Qed.
Print Assumptions C135_minimum.
(** Maximising: minus fx_opt is exactly f at x_opt, and no evaluated row has a larger value. *)
Theorem C135_maximum : forall fuel E max_iter max_time eps X0 X Y Y_best x_opt fx_opt, ordinary_run E -> never_nan E -> v_maximize E = true -> X0 <> [] ->
  Forall (configuration (v_kinds E)) X0 -> run_f fuel E max_iter max_time eps X0 None = Some (Ok (X, Y, (Y_best, x_opt, fx_opt))) ->
  In x_opt X /\ (exists v, v_f E x_opt = Ok v /\ same_number (Bopp fx_opt) v) /\ forall x w, In x X -> v_f E x = Ok w -> at_most w (Bopp fx_opt).
Proof.
  intros fuel E mi mt eps X0 X Y yb x m OR NN MX NE CX H. destruct (run_ok fuel E mi mt eps X0 None X Y _ OR CX H) as (Yi & new & ys & HY & EX & EY & AN & CF & _ & _ & CR).
  assert (AX : answers (sign_f (v_f E)) X Y) by (unfold v_objective in HY, AN; rewrite MX in HY, AN; rewrite EX, EY; now apply answers_app). clear HY AN EY.
  assert (FS : exists fs, answers (v_f E) X fs).
  { clear -AX. induction AX as [|a b X Y F A (fs & G)]; [exists []; constructor|]. unfold sign_f in F. destruct (v_f E a) as [v|e] eqn:V; [|discriminate F]. exists (v :: fs). now constructor. }
  destruct FS as (fs & FS). assert (NX : X <> []) by (rewrite EX; destruct X0; [congruence|discriminate]).
  assert (HN : forall y, In y fs -> nan_p y = false). { rewrite Forall_forall in CF. clear -FS CF NN. induction FS as [|a b X Y F A IH]; [intros y []|]. intros y [<-|I]; [exact (NN a b (CF a (or_introl eq_refl)) F)|]. apply IH; [intros z Z; apply CF; now right|exact I]. }
  destruct (C134_maximize _ (v_f E) X fs (proj2 (mapM_answers _ _ _) FS) NX HN) as (Y' & yb' & x' & m' & v & SY & CR' & IX & FX & SM & AM).
  apply mapM_answers in AX. rewrite AX in SY. injection SY as <-. rewrite CR in CR'. injection CR' as <- <- <-. split; [exact IX|]. split; [eauto|].
  intros a w I F. apply AM. clear -FS I F. induction FS as [|c b X fs G A IH]; [destruct I|]. destruct I as [->|I]; [rewrite F in G; injection G as ->; now left|right; now apply IH].
Qed.
Print Assumptions C135_maximum.

Lemma first_nan Y : (forall y : float, In y Y -> nan_p y = false) \/ exists i, IeeeSpec.first_at (fun y => nan_p y = true) Y i.
Proof.
  induction Y as [|y Y IH]; [left; intros y []|]. destruct (nan_p y) eqn:N.
  - right. exists 0. split; [exists y; split; [reflexivity|exact N]|]. intros j z J. lia.
  - destruct IH as [H|(i & (z & Z & NZ) & B)].
    + left. intros z [<-|I]; auto.
    + right. exists (Datatypes.S i). split; [eauto|]. intros [|j] w J W; cbn in W; [injection W as <-; congruence|]. apply (B j w); [lia|exact W].
Qed.
Lemma results_total {A} (X : list A) Y : length X = length Y -> Y <> [] -> exists r, compute_results_f X Y = Ok r.
Proof.
  intros L NE. destruct (first_nan Y) as [H|(i & F)].
  - destruct (C134_report A X Y L NE H) as (yb & x & m & i & y & R & _). eauto.
  - destruct (nth_error X i) as [x|] eqn:EX.
    + destruct (C134_nan A X Y i x L F EX) as (yb & m & R & _). eauto.
    + apply nth_error_None in EX. destruct F as ((y & Y1 & _) & _). assert (i < length Y) by (apply nth_error_Some; congruence). lia.
Qed.
(** A run with a budget ends, whatever the other limits and the clock: with a report, or because with de-duplication every row of a design was evaluated. *)
Theorem C135_ends : forall fuel E b max_time eps X0 k, ordinary_run E -> (forall X Y a, v_fit E X Y = Some a -> a_design a <> []) ->
  (forall x, configuration (v_kinds E) x -> exists v, v_f E x = Ok v) -> X0 <> [] -> Forall (configuration (v_kinds E)) X0 ->
  number b -> (val b <= INR k)%R -> (Z.of_nat k <= 2 ^ 53)%Z -> k < fuel ->
  (exists r, run_f fuel E (Some b) max_time eps X0 None = Some (Ok r)) \/ (v_dedup E = true /\ run_f fuel E (Some b) max_time eps X0 None = Some (Raise FullyExplored)).
Proof.
  intros fuel E b mt eps X0 k OR DN TF NE CX NB VB PK LF.
  assert (TO : forall x, configuration (v_kinds E) x -> exists v, v_objective E x = Ok v).
  { intros x C. destruct (TF x C) as (v & V). unfold v_objective, sign_f. destruct (v_maximize E); rewrite V; cbn [bind]; eauto. }
  assert (MI : exists Yi, mapM (v_objective E) X0 = Ok Yi /\ length X0 = length Yi).
  { clear NE. induction CX as [|x X C CX (Yi & M & L)]; [exists []; auto|]. destruct (TO x C) as (v & V). exists (v :: Yi). cbn [mapM]. rewrite V. cbn [bind]. rewrite M. split; [reflexivity|cbn; congruence]. }
  destruct MI as (Yi & MI & LI).
  assert (LP : forall fuel n cum X Y, k < n + fuel -> n <= k -> Forall (configuration (v_kinds E)) X -> length X = length Y -> X <> [] ->
    (exists X' Y', loop_f fuel E b (snd (limits_f (Some b) mt)) eps (Z.of_nat n) cum X Y = Some (Ok (X', Y')) /\ length X' = length Y' /\ X' <> []) \/
    (v_dedup E = true /\ loop_f fuel E b (snd (limits_f (Some b) mt)) eps (Z.of_nat n) cum X Y = Some (Raise FullyExplored))).
  { clear fuel LF Yi MI LI. induction fuel as [|fuel IH]; intros n cum X Y LF LN C L NX; [lia|]. cbn [loop_f].
    destruct (enters _ cum); [|left; exists X, Y; auto]. destruct (v_fit E X Y) as [a|] eqn:FT; [|left; exists X, Y; auto]. destruct (leaves (v_total E) b eps (Z.of_nat n) X) eqn:LV; [left; exists X, Y; auto|].
    destruct (suggest_f _ _ _ _ _ _) as [x|e] eqn:SG.
    - destruct (suggest_step E X Y a x OR C FT SG) as (Cx & _). destruct (TO x Cx) as (y & V). rewrite V. replace (Z.of_nat n + 1)%Z with (Z.of_nat (Datatypes.S n)) by lia.
      destruct (Nat.eq_dec n k) as [->|NK]; [rewrite (leaves_budget _ b eps k X NB VB PK) in LV; discriminate LV|].
      apply IH; [lia|lia|apply Forall_app; split; [exact C|now constructor]|rewrite !app_length; cbn; lia|destruct X; discriminate].
    - right. destruct OR as [SP OR]. destruct (C132_suggestion (v_kinds E) (if v_dedup E then Some X else None) a SP (OR X Y a FT)) as [(row & R & _)|(R & D)].
      + intros Z HZ. destruct (v_dedup E); [injection HZ as <-; exact C|discriminate HZ].
      + rewrite SG in R. discriminate R.
      + rewrite SG in R. injection R as ->. split; [|reflexivity]. destruct (a_design a) as [|row de] eqn:DE; [destruct (DN X Y a FT DE)|]. destruct (D row (or_introl eq_refl)) as (Z & _ & KN & _). destruct (v_dedup E); [reflexivity|discriminate KN]. }
  unfold run_f. rewrite MI. replace (fst (limits_f (Some b) mt)) with b by (destruct mt; reflexivity). destruct (LP fuel 0 f0 X0 Yi) as [(X' & Y' & H & L & NX)|(D & H)]; [lia|lia|exact CX|exact LI|exact NE| |].
  - left. cbn [Z.of_nat] in H. rewrite H. cbn [fst snd]. destruct (results_total X' Y' L) as (r & R); [intros ->; destruct X'; [congruence|discriminate L]|]. rewrite R. cbn [bind]. eauto.
  - right. split; [exact D|]. cbn [Z.of_nat] in H. rewrite H. reflexivity.
Qed.
Print Assumptions C135_ends.

(** f is the first coordinate; the run starts at (0, 2, 2) with a budget of 1.5. *)
Definition E3 (maximize : bool) : fenv :=
  mk_fenv ks3 true maximize (fun row => match row with x :: _ => Ok x | [] => Raise IndexError end) (fun X _ => Some (A3 X)) from_left (of_Z 100) (fun _ => of_Z 101).
Definition start3 : list (list float) := [[of_Z 0; of_Z 2; of_Z 2]].
Definition shows (r : option (res (list (list float) * list float * (list float * list float * float)))) (n : nat) (x : list float) (m : float) : bool :=
  match r with Some (Ok (X, Y, (_, x', m'))) => Nat.eqb (length X) n && Nat.eqb (length Y) n && FloatDup.tuple_eq x x' && feq m m' | _ => false end.
(** Two rows are added, (1, 2, 1) and (0, 0, 1); the first row is reported when minimising, (1, 2, 1) when maximising; a third row is (1, 0, 2), and then the designs are explored. *)
Example C135_nonvacuous : (forall b, ordinary_run (E3 b) /\ never_nan (E3 b) /\ (forall x, configuration ks3 x -> exists v, v_f (E3 b) x = Ok v) /\ forall X Y a, v_fit (E3 b) X Y = Some a -> a_design a <> []) /\
  (forall b X Y, v_fit (E3 b) X Y <> None) /\ (forall b l, added l (v_total (E3 b) l)) /\ (forall b i, number (cum_time (v_clock (E3 b) i) (v_zero (E3 b)))) /\ below (of_Z (-1)) /\ (INR 2 - 1 < val (lit 3 (-1)))%R /\
  Forall (configuration ks3) start3 /\ number (lit 3 (-1)) /\ (val (lit 3 (-1)) <= INR 2)%R /\
  shows (run_f 3 (E3 false) (Some (lit 3 (-1))) None (of_Z (-1)) start3 None) 3 [of_Z 0; of_Z 2; of_Z 2] (of_Z 0) = true /\
  shows (run_f 3 (E3 true) (Some (lit 3 (-1))) None (of_Z (-1)) start3 None) 3 [of_Z 1; of_Z 2; of_Z 1] (of_Z (-1)) = true /\
  match run_f 9 (E3 true) (Some (of_Z 8)) None (of_Z (-1)) start3 None with Some (Raise FullyExplored) => true | _ => false end = true.
Proof.
  assert (HD : forall x, configuration ks3 x -> exists v t, x = v :: t /\ number v).
  { intros x C. inversion C as [|k v ks t F T]; subst. exists v, t. split; [reflexivity|]. exact (proj1 F). }
  assert (V3 : (val (lit 3 (-1)) = 3 / 2)%R) by (destruct (lit_ok 3 (-1)) as [_ V]; [cbn; lia|lia|]; rewrite V; change (bpow radix2 (-1)) with (/ 2)%R; lra).
  split; [|split; [discriminate|split; [intros b l; exact (from_left_added l)|split; [reflexivity|split; [right; right; split; [reflexivity|destruct (of_Z_ok (-1)) as [_ V]; [lia|]; rewrite V; lra]|split; [rewrite V3; cbn; lra|]]]]]].
  2: split; [|split; [reflexivity|split; [|split; [vm_compute; reflexivity|split; vm_compute; reflexivity]]]].
  - intros b. split; [|split; [|split]].
    + split; [exact ks3_space|]. intros X Y a FT. cbn in FT. apply Some_eq in FT. subst a. exact (A3_ordinary X).
    + intros x v C F. destruct (HD x C) as (w & t & -> & N). cbn in F. injection F as <-. unfold number in N. destruct w; try discriminate N; reflexivity.
    + intros x C. destruct (HD x C) as (w & t & -> & N). cbn. eauto.
    + intros X Y a FT. cbn in FT. apply Some_eq in FT. subst a. discriminate.
  - constructor; [|constructor]. constructor; [apply value_in; cbn; lia|]. constructor; [cbn; auto|]. constructor; [|constructor]. exists 2. split; [lia|]. destruct (of_Z_ok 2) as [N V]; [lia|]. split; [exact N|]. rewrite V. cbn. lra.
  - rewrite V3. cbn. lra.
Qed.
