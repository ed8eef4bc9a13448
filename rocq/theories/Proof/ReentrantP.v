(** Calls made from inside the objective: what they change and what they leave. *)
From Coq Require Import String List ZArith QArith Qcanon Bool Lia.
From Verif.Model Require Import Py Space Design Optim Objective BO Reentrant.
From Verif.Spec Require Import Examples BOSpec BOExamples ReentrantSpec.
From Verif.Proof Require Import Num Dec BOP BOLoop BOMain BOMain2.
Import ListNotations.
Local Open Scope nat_scope.

Section P.
Context {M : Type}.
Notation env := (env M).
Notation st := (st M).

(** the attributes that a call of suggest_next_locations leaves alone *)
Definition kept (s s' : st) : Prop :=
  s_X s' = s_X s /\ s_Y s' = s_Y s /\ s_cost s' = s_cost s /\ s_cum s' = s_cum s /\ s_sugg s' = s_sugg s /\ s_ynew s' = s_ynew s /\
  s_report s' = s_report s /\ s_hist s' = s_hist s /\ s_tick s' = s_tick s.
Lemma kept_refl s : kept s s.
Proof. repeat split. Qed.
Lemma kept_trans a b c : kept a b -> kept b c -> kept a c.
Proof. unfold kept. intuition congruence. Qed.

Lemma suggest_keeps (E : env) s c p i s' r : suggest_next_locations E s c p i = (s', r) -> kept s s' /\ s_num s' = 0 /\ s_ctx s' = c.
Proof.
  unfold suggest_next_locations. destruct (update_model E _) as [s1 [[]|e]] eqn:U; apply update_model_spec in U as (m & q & V & -> & _).
  - intros C. apply cne_spec in C as (m2 & ->). repeat split.
  - intros [= <- <-]. repeat split.
Qed.

Lemma meddle_keeps (E : env) ask : forall rows s h s' b, meddle E ask s h rows = (s', b) -> kept s s' /\
  (s_num s' = s_num s \/ s_num s' = 0) /\ (always_asks ask -> rows <> [] -> s_num s' = 0) /\
  (silent ask -> s' = s /\ b = true) /\
  (forall c, asks_with c ask -> (s_ctx s' = s_ctx s \/ s_ctx s' = c) /\ (always_asks ask -> rows <> [] -> s_ctx s' = c)).
Proof.
  induction rows as [|x rows IH]; intros s h s' b; cbn [meddle].
  - intros [= <- <-]. split; [apply kept_refl|]. split; [auto|]. split; [intros _ N; now destruct N|]. split; [auto|]. intros c _. split; [auto|]. intros _ N. now destruct N.
  - destruct (ask h x) as [[[c p] i]|] eqn:A.
    + destruct (suggest_next_locations E s c p i) as [s1 r] eqn:Sg. apply suggest_keeps in Sg as (K & Nu & Cx).
      assert (Si : ~ silent ask) by (intros Si; rewrite Si in A; discriminate).
      destruct r as [r|].
      * intros H. apply IH in H as (K' & N' & _ & _ & C'). split; [now apply (kept_trans _ _ _ K)|].
        assert (N0 : s_num s' = 0) by (destruct N'; congruence). split; [auto|]. split; [auto|]. split; [tauto|].
        intros c' Hc. pose proof (Hc _ _ _ _ _ A) as Ec. rewrite Ec in Cx. destruct (C' c' Hc) as [[C1|C1] _]; rewrite ?C1; split; auto.
      * intros [= <- <-]. split; [exact K|]. split; [auto|]. split; [auto|]. split; [tauto|].
        intros c' Hc. pose proof (Hc _ _ _ _ _ A) as Ec. rewrite Ec in Cx. split; auto.
    + intros H. apply IH in H as (K' & N' & _ & S' & C'). assert (Al : ~ always_asks ask) by (intros Al; now apply (Al h x)).
      split; [exact K'|]. split; [exact N'|]. split; [tauto|]. split; [exact S'|]. intros c' Hc. split; [now apply C'|tauto].
Qed.

Lemma during_keeps (E : env) o ask s x s' b : during E o ask s x = (s', b) -> kept s s' /\
  (s_num s' = s_num s \/ s_num s' = 0) /\ (silent ask -> s' = s /\ b = true) /\
  (forall c, asks_with c ask -> s_ctx s' = s_ctx s \/ s_ctx s' = c) /\
  (forall h t ys cs, o_procs o = 1 -> x <> [] -> evaluate o (e_clock E) (s_hist s) (s_tick s) x = (h, t, Some (Ok (ys, cs))) ->
     always_asks ask -> s_num s' = 0 /\ forall c, asks_with c ask -> s_ctx s' = c).
Proof.
  unfold during. destruct (evaluate o (e_clock E) (s_hist s) (s_tick s) x) as [[h t] r] eqn:Ev. intros H. apply meddle_keeps in H as (K & N & NA & Si & C).
  split; [exact K|]. split; [exact N|]. split; [exact Si|]. split; [intros c Hc; now apply C|].
  intros h' t' ys cs P NE [= -> -> ->] A. apply evaluate_seq_ok in Ev as [-> _]; [|exact P].
  assert (R : skipn (length (s_hist s)) (s_hist s ++ x) = x) by (rewrite skipn_app, skipn_all, Nat.sub_diag; reflexivity). rewrite R in *. split; [now apply NA|]. intros c Hc. now apply C.
Qed.

Lemma suggest_returns (E : env) o s c p i : parts_return E o -> snd (suggest_next_locations E s c p i) <> None.
Proof.
  intros [PB _]. unfold suggest_next_locations. destruct (update_model E _) as [s1 [u|e]]; [|discriminate]. unfold compute_next_evaluations.
  destruct (context_manager _ _) as [cm|e]; [|discriminate]. specialize (PB (s_model s1) (if e_dedup E then Some (duplicate_manager (e_space E) (s_X s1) p i) else None) cm).
  destruct (e_batch E _ _ _) as [m1 [[b1|e]|]]; [discriminate..|]. now destruct PB.
Qed.
Lemma meddle_returns (E : env) o ask : parts_return E o -> forall rows s h, snd (meddle E ask s h rows) = true.
Proof.
  intros PR. induction rows as [|x rows IH]; intros s h; cbn [meddle]; [reflexivity|]. destruct (ask h x) as [[[c p] i]|]; [|apply IH].
  pose proof (suggest_returns E o s c p i PR) as N. destruct (suggest_next_locations E s c p i) as [s1 [r|]]; [apply IH | now destruct N].
Qed.
Lemma during_returns (E : env) o ask s x s' : parts_return E o -> during E o ask s x = (s', false) -> False.
Proof.
  intros PR. unfold during. destruct (evaluate _ _ _ _ _) as [[h t] r]. intros H. pose proof (meddle_returns E o ask PR (skipn (length (s_hist s)) h) s (s_hist s)) as R. rewrite H in R. discriminate.
Qed.

(** one turn of the loop *)
Lemma loop_in_step (E : env) o ask fuel mi mt eps z s s' r : loop_in (S fuel) E o ask mi mt eps z s = (s', r) ->
  (time_left mt (s_cum s) = false /\ s' = s /\ r = Some (Ok tt)) \/
  (exists e, update_model E s = (s', Raise e) /\ r = (if match e with LinAlgError => true | _ => false end then Some (Ok tt) else Some (Raise e))) \/
  (update_model E s = (s', Ok tt) /\ r = Some (Ok tt) /\ (iters_done mi (s_num s) = true \/ (1 < length (s_X s) /\ last_two_close eps (s_X s) = true))) \/
  (r <> Some (Ok tt) /\ iters_done mi (s_num s) = false /\ (parts_return E o -> o_procs o = 1 -> r <> None)) \/
  (exists s1 s2 s3 b ys cs h t, iters_done mi (s_num s) = false /\ s_X s1 = s_X s ++ b /\ s_Y s1 = s_Y s /\ s_hist s1 = s_hist s /\ s_tick s1 = s_tick s /\ s_ctx s1 = s_ctx s /\
     s_num s1 = s_num s /\ s_cost s1 = s_cost s /\ s_sugg s1 = b /\ b <> [] /\
     during E o ask s1 b = (s2, true) /\ evaluate o (e_clock E) (s_hist s) (s_tick s) b = (h, t, Some (Ok (ys, cs))) /\
     s_X s3 = s_X s ++ b /\ s_Y s3 = match s_Y s with Some Y => Some (Y ++ ys) | None => None end /\ s_hist s3 = h /\ s_ctx s3 = s_ctx s2 /\ s_num s3 = S (s_num s2) /\ s_sugg s3 = b /\
     loop_in fuel E o ask mi mt eps z s3 = (s', r)).
Proof.
  cbn [loop_in]. destruct (time_left mt (s_cum s)) eqn:TL; [|intros [= <- <-]; auto].
  destruct (update_model E s) as [s1 [[]|e]] eqn:UM.
  2:{ intros H. right; left. exists e. destruct e; injection H as <- <-; auto. }
  pose proof (update_model_spec E s s1 _ UM) as (m & p & U & -> & _ & _). sproj.
  destruct (iters_done mi (s_num s)) eqn:ID. { cbn [orb]. intros [= <- <-]. right; right; left. auto. }
  cbn [orb]. destruct (Nat.ltb 1 (length (s_X s)) && last_two_close eps (s_X s)) eqn:CL.
  { intros [= <- <-]. right; right; left. apply andb_true_iff in CL as [A B]. apply Nat.ltb_lt in A. auto. }
  intros H. right; right; right. revert H.
  destruct (compute_next_evaluations E _ None None) as [s2 [[b|e]|]] eqn:CN; [|intros [= <- <-]; left; split; [discriminate|]; split; [reflexivity | discriminate] |].
  2:{ intros [= <- <-]; left; split; [discriminate|]; split; [reflexivity|]. intros [PB _] _. exfalso. unfold compute_next_evaluations in CN.
      destruct (context_manager _ _) as [cm|e]; [|discriminate]. specialize (PB (s_model (with_model s m p U)) (if e_dedup E then Some (duplicate_manager (e_space E) (s_X (with_model s m p U)) None None) else None) cm).
      destruct (e_batch E _ _ _) as [m1 [[b1|e]|]]; try discriminate. now apply PB. }
  assert (NE : b <> []).
  { unfold compute_next_evaluations in CN. destruct (context_manager _ _) as [cm|e]; [|discriminate]. destruct (e_batch E _ _ _) as [m1 [[b1|e]|]]; try discriminate.
    injection CN as _ Z. unfold zip_inputs in Z. assert (A : forall l : mat, atleast_2d l <> []) by (intros [|? ?]; discriminate).
    destruct (has_bandit _); [injection Z as <-; apply A|]. destruct (mapM _ b1); [|discriminate]. injection Z as <-. apply A. }
  pose proof (cne_spec _ _ _ _ _ _ CN) as (m2 & ->). cbn zeta. sproj.
  destruct (vstack (s_X s) b) as [X'|e] eqn:V; [|intros [= <- <-]; left; split; [discriminate|]; split; [reflexivity | discriminate]]. apply vstack_app in V. subst X'.
  unfold evaluate_objective_in. sproj. set (s0 := set_X _ _).
  destruct (during E o ask s0 b) as [s3 [|]] eqn:D; [|intros [= <- <-]; left; split; [discriminate|]; split; [reflexivity|]; intros PR _; now apply during_returns in D].
  destruct (during_keeps _ _ _ _ _ _ _ D) as ((KX & KY & KC & KT & KS & KN & KR & KH & KK) & _). unfold s0 in KX, KY, KC, KT, KS, KN, KR, KH, KK. sproj in *.
  unfold evaluate_objective. rewrite KH, KK, KS.
  destruct (evaluate o (e_clock E) (s_hist s) (s_tick s) b) as [[h t] [[[ys cs]|e]|]] eqn:EV; cbv beta iota; [|intros [= <- <-]; left; split; [discriminate|]; split; [reflexivity | discriminate] | intros [= <- <-]; left; split; [discriminate|]; split; [reflexivity|]; intros _ P1; rewrite (evaluate_seq _ _ _ _ _ P1) in EV; destruct (eval_func _ _ _ _ _) as [[? ?] ?]; discriminate].
  sproj. rewrite ?KC, ?KS. destruct (update_cost_model (e_lg E) (e_costfit E) (s_cost s) b cs) as [c [[]|e]] eqn:UC; cbv beta iota zeta; [|intros [= <- <-]; left; split; [discriminate|]; split; [reflexivity | discriminate]].
  intros H. right. match type of H with loop_in _ _ _ _ _ _ _ _ ?sx = _ => exists s0, s3, sx, b, ys, cs, h, t end.
  repeat (split; [first [reflexivity | assumption | unfold s0; sproj; rewrite ?KX, ?KY, ?KS; reflexivity]|]). exact H.
Qed.

(** a silent objective is an ordinary one *)
Lemma silent_loop (E : env) o ask mi mt eps z : silent ask -> forall fuel s, loop_in fuel E o ask mi mt eps z s = loop fuel E o mi mt eps z s.
Proof.
  intros Si. induction fuel as [|fuel IH]; intros s; cbn [loop_in loop]; [reflexivity|]. destruct (time_left mt (s_cum s)); [|reflexivity].
  destruct (update_model E s) as [s1 [u|e]]; [|destruct e; reflexivity]. destruct (_ || _); [reflexivity|].
  destruct (compute_next_evaluations E s1 None None) as [s2 [[b|e]|]]; try reflexivity. cbn zeta. destruct (vstack _ b) as [X'|e]; [|reflexivity].
  unfold evaluate_objective_in. destruct (during _ _ _ _ _) as [s3 b3] eqn:D. destruct (during_keeps _ _ _ _ _ _ _ D) as (_ & _ & K & _). destruct (K Si) as [-> ->].
  destruct (evaluate_objective E o _) as [s4 [[u4|e]|]]; try reflexivity. apply IH.
Qed.
Lemma silent_run fuel (E : env) ask s mi mt eps ctx : silent ask -> run_in fuel E ask s mi mt eps ctx = run_optimization fuel E s mi mt eps ctx.
Proof.
  intros Si. unfold run_in, run_optimization. destruct (e_obj E) as [o|]; [|reflexivity].
  assert (I : forall s, initial_evaluation_in E o ask s = initial_evaluation E o s).
  { intros s0. unfold initial_evaluation_in. destruct (s_Y s0) eqn:Y; [unfold initial_evaluation; now rewrite Y|].
    destruct (during _ _ _ _ _) as [s3 b3] eqn:D. destruct (during_keeps _ _ _ _ _ _ _ D) as (_ & _ & K & _). destruct (K Si) as [-> ->]. reflexivity. }
  rewrite I. destruct (initial_evaluation E o _) as [s1 [[u|e]|]]; try reflexivity. cbn zeta. now rewrite silent_loop.
Qed.

(** worker processes leave no trace *)
Lemma workers_during (E : env) o ask s x : o_procs o <> 1 -> o_fork o = true -> during E o ask s x = (s, true).
Proof.
  intros P F. unfold during, evaluate. apply Nat.eqb_neq in P. rewrite P. unfold parallel_evaluation. rewrite F. cbn [negb andb].
  destruct (mapM _ _); cbn; rewrite skipn_all; reflexivity.
Qed.
Lemma workers_loop (E : env) o ask mi mt eps z : o_procs o <> 1 -> o_fork o = true -> forall fuel s, loop_in fuel E o ask mi mt eps z s = loop fuel E o mi mt eps z s.
Proof.
  intros P F. induction fuel as [|fuel IH]; intros s; cbn [loop_in loop]; [reflexivity|]. destruct (time_left mt (s_cum s)); [|reflexivity].
  destruct (update_model E s) as [s1 [u|e]]; [|destruct e; reflexivity]. destruct (_ || _); [reflexivity|].
  destruct (compute_next_evaluations E s1 None None) as [s2 [[b|e]|]]; try reflexivity. cbn zeta. destruct (vstack _ b) as [X'|e]; [|reflexivity].
  unfold evaluate_objective_in. rewrite workers_during by assumption.
  destruct (evaluate_objective E o _) as [s4 [[u4|e]|]]; try reflexivity. apply IH.
Qed.
Lemma workers_run fuel (E : env) o ask s mi mt eps ctx : e_obj E = Some o -> o_procs o <> 1 -> o_fork o = true ->
  run_in fuel E ask s mi mt eps ctx = run_optimization fuel E s mi mt eps ctx.
Proof.
  intros O P F. unfold run_in, run_optimization. rewrite O.
  assert (I : forall s, initial_evaluation_in E o ask s = initial_evaluation E o s).
  { intros s0. unfold initial_evaluation_in. destruct (s_Y s0) eqn:Y; [unfold initial_evaluation; now rewrite Y|]. now rewrite workers_during. }
  rewrite I. destruct (initial_evaluation E o _) as [s1 [[u|e]|]]; try reflexivity. cbn zeta. now rewrite workers_loop.
Qed.

(** the data *)
Lemma loop_in_data (E : env) o ask mi mt eps z : forall fuel s s' Y, loop_in fuel E o ask mi mt eps z s = (s', Some (Ok tt)) -> s_Y s = Some Y ->
  exists new ys, s_X s' = s_X s ++ new /\ s_Y s' = Some (Y ++ ys) /\ length ys = length new /\
    (o_procs o = 1 -> answers (o_fun o) (s_hist s) new ys /\ s_hist s' = s_hist s ++ new) /\
    (stateless (o_fun o) -> 1 <= o_procs o -> values_at (o_fun o) new ys).
Proof.
  assert (Z : forall (f : objfun) h, answers f h [] [] /\ values_at f [] []) by (intros f h; split; [apply answers_nil | constructor]).
  induction fuel as [|fuel IH]; intros s s' Y H Hy; [discriminate|].
  assert (St : forall sx rx, update_model E s = (sx, rx) -> exists new ys, s_X sx = s_X s ++ new /\ s_Y sx = Some (Y ++ ys) /\ length ys = length new /\
    (o_procs o = 1 -> answers (o_fun o) (s_hist s) new ys /\ s_hist sx = s_hist s ++ new) /\ (stateless (o_fun o) -> 1 <= o_procs o -> values_at (o_fun o) new ys)).
  { intros sx rx U. apply update_model_spec in U as (m & q & V & -> & _). exists [], []. sproj. rewrite !app_nil_r. repeat split; auto; try apply Z. intros. apply (Z (o_fun o) []). }
  apply loop_in_step in H as [(_ & -> & _)|[(e & U & _)|[(U & _ & _)|[(N & _ & _)|G]]]]; [| | |now destruct N|].
  - exists [], []. rewrite !app_nil_r. repeat split; auto; try apply Z. intros. apply (Z (o_fun o) []).
  - eapply St. exact U.
  - eapply St. exact U.
  - destruct G as (s1 & s2 & s3 & b & ys & cs & h & t & _ & _ & _ & _ & _ & _ & _ & _ & _ & _ & _ & Ev & X3 & Y3 & H3 & _ & _ & _ & L).
    rewrite Hy in Y3. destruct (IH _ _ _ L Y3) as (new & ys2 & EX & EY & EL & EA & EV). exists (b ++ new), (ys ++ ys2).
    rewrite EX, EY, X3, !app_assoc. split; [reflexivity|]. split; [reflexivity|]. split; [rewrite !app_length; apply evaluate_length in Ev; lia|]. split.
    + intros P. destruct (EA P) as [A1 A2]. apply evaluate_seq_ok in Ev as [-> A]; [|exact P]. rewrite H3 in *. split; [now apply answers_app | exact A2].
    + intros Sl P. unfold values_at. apply Forall2_app; [eapply evaluate_values; eauto | now apply EV].
Qed.

(** the limit on the iterations *)
Definition other_end (E : env) mt eps (s' : st) : Prop :=
  time_left mt (s_cum s') = false \/ (exists pre a b, s_X s' = pre ++ [b; a] /\ within_eps eps a b) \/
  (exists m Xm Ym U, s_updates s' = U ++ [(s_num s', Xm, Ym)] /\ snd (e_update E m Xm Ym) = Some LinAlgError).
Lemma loop_in_limit (E : env) o ask mt eps z q : always_asks ask -> o_procs o = 1 -> (1 < q)%Qc -> forall fuel s s',
  loop_in fuel E o ask (Some q) mt eps z s = (s', Some (Ok tt)) -> s_num s <= 1 -> s_num s' <= 1 /\ other_end E mt eps s'.
Proof.
  intros A P Q. induction fuel as [|fuel IH]; intros s s' H N; [discriminate|].
  assert (ND : iters_done (Some q) (s_num s) = false).
  { unfold iters_done. destruct (qcle q (nat2q (s_num s))) eqn:D; [|reflexivity]. apply qcle_spec in D. exfalso.
    assert (L : (nat2q (s_num s) <= 1)%Qc) by (destruct (s_num s) as [|[|k]]; [discriminate | apply Qcle_refl | lia]).
    apply (Qclt_not_le _ _ Q). now apply Qcle_trans with (nat2q (s_num s)). }
  apply loop_in_step in H as [(T & -> & _)|[(e & U & R)|[(U & _ & W)|[(K & _ & _)|G]]]]; [| | |now destruct K|].
  - split; [exact N|]. left. exact T.
  - pose proof (update_model_spec _ _ _ _ U) as (m & p & V & -> & HU & HO). split; [exact N|]. right; right.
    destruct e; try discriminate. destruct HO as (_ & _ & _ & Xm & Ym & -> & L). sproj. eauto 10.
  - pose proof (update_model_spec _ _ _ _ U) as (m & p & V & -> & HU & HO). split; [exact N|]. right; left. sproj.
    destruct W as [W|[_ W]]; [congruence|]. now apply close_spec.
  - destruct G as (s1 & s2 & s3 & b & ys & cs & h & t & _ & _ & _ & H1 & T1 & _ & _ & _ & _ & NE & D & Ev & _ & _ & _ & _ & N3 & B3 & L).
    destruct (during_keeps _ _ _ _ _ _ _ D) as (_ & _ & _ & _ & K). rewrite H1, T1 in K. destruct (K _ _ _ _ P NE Ev A) as [K0 _].
    apply (IH _ _ L). lia.
Qed.

(** the context *)
Lemma loop_in_context (E : env) o ask mi mt eps z c : always_asks ask -> asks_with c ask -> o_procs o = 1 -> forall fuel s s',
  loop_in fuel E o ask mi mt eps z s = (s', Some (Ok tt)) -> (s_ctx s' = s_ctx s /\ s_hist s' = s_hist s) \/ s_ctx s' = c.
Proof.
  intros A C P. induction fuel as [|fuel IH]; intros s s' H; [discriminate|].
  apply loop_in_step in H as [(T & -> & _)|[(e & U & R)|[(U & _ & W)|[(K & _ & _)|G]]]]; [auto| | |now destruct K|].
  - pose proof (update_model_spec _ _ _ _ U) as (m & p & V & -> & HU & HO). auto.
  - pose proof (update_model_spec _ _ _ _ U) as (m & p & V & -> & HU & HO). auto.
  - destruct G as (s1 & s2 & s3 & b & ys & cs & h & t & _ & _ & _ & H1 & T1 & _ & _ & _ & _ & NE & D & Ev & _ & _ & _ & C3 & N3 & B3 & L).
    destruct (during_keeps _ _ _ _ _ _ _ D) as (_ & _ & _ & _ & K). rewrite H1, T1 in K. destruct (K _ _ _ _ P NE Ev A) as [_ K0].
    right. destruct (IH _ _ L) as [[I _]|I]; [|exact I]. rewrite I, C3. now apply K0.
Qed.

(** a limit of at most one iteration *)
Lemma loop_in_one (E : env) o ask mt eps z q fuel s : parts_return E o -> o_procs o = 1 -> (q <= 1)%Qc -> s_num s = 0 -> 2 <= fuel ->
  snd (loop_in fuel E o ask (Some q) mt eps z s) <> None /\
  forall s', loop_in fuel E o ask (Some q) mt eps z s = (s', Some (Ok tt)) -> s_num s' <= 1 /\ (s_X s' = s_X s \/ s_X s' = s_X s ++ s_sugg s').
Proof.
  intros PR P Q N F. destruct fuel as [|[|fuel]]; [lia..|]. destruct (loop_in (S (S fuel)) E o ask (Some q) mt eps z s) as [s' r] eqn:H. cbn [snd].
  assert (U1 : forall sx rx, update_model E s = (sx, rx) -> s_num sx <= 1 /\ (s_X sx = s_X s \/ s_X sx = s_X s ++ s_sugg sx)).
  { intros sx rx U. pose proof (update_model_spec _ _ _ _ U) as (m & p & V & -> & HU & HO). sproj. split; [lia|]. auto. }
  apply loop_in_step in H as [(T & -> & ->)|[(e & U & ->)|[(U & -> & W)|[(K & _ & K2)|G]]]].
  - split; [discriminate|]. intros s'' [= <-]. split; [lia|]. auto.
  - split; [destruct e; discriminate|]. intros s'' H. injection H as <- _. eapply U1; exact U.
  - split; [discriminate|]. intros s'' [= <-]. eapply U1; exact U.
  - split; [now apply K2|]. intros s'' [= <- ->]. now destruct K.
  - destruct G as (s1 & s2 & s3 & b & ys & cs & h & t & _ & _ & _ & H1 & T1 & _ & N1 & _ & _ & NE & D & Ev & X3 & _ & _ & _ & N3 & B3 & L).
    destruct (during_keeps _ _ _ _ _ _ _ D) as (_ & K & _). assert (N3' : s_num s3 = 1) by lia.
    assert (ID : iters_done (Some q) (s_num s3) = true) by (rewrite N3'; apply qcle_spec; exact Q).
    assert (U3 : forall sx rx, update_model E s3 = (sx, rx) -> s_num sx <= 1 /\ (s_X sx = s_X s \/ s_X sx = s_X s ++ s_sugg sx)).
    { intros sx rx U. pose proof (update_model_spec _ _ _ _ U) as (m & p & V & -> & HU & HO). sproj. split; [lia|]. right. now rewrite B3. }
    apply loop_in_step in L as [(T & -> & ->)|[(e & U & ->)|[(U & -> & W)|[(_ & K2 & _)|G]]]].
    + split; [discriminate|]. intros s'' [= <-]. split; [lia|]. right. now rewrite B3.
    + split; [destruct e; discriminate|]. intros s'' H. injection H as <- _. eapply U3; exact U.
    + split; [discriminate|]. intros s'' [= <-]. eapply U3; exact U.
    + congruence.
    + destruct G as (? & ? & ? & ? & ? & ? & ? & ? & G & _). congruence.
Qed.

(** the initial evaluation *)
Lemma initial_in (E : env) o ask s s' r : initial_evaluation_in E o ask s = (s', r) ->
  s_X s' = s_X s /\ (r = Some (Ok tt) -> exists ys, s_Y s' = Some (values_so_far s ++ ys) /\ length ys = length (pending_rows s) /\
    (o_procs o = 1 -> answers (o_fun o) (s_hist s) (pending_rows s) ys /\ s_hist s' = s_hist s ++ pending_rows s) /\
    (stateless (o_fun o) -> 1 <= o_procs o -> values_at (o_fun o) (pending_rows s) ys) /\
    (forall c, always_asks ask -> asks_with c ask -> o_procs o = 1 -> (s_ctx s' = s_ctx s /\ s_hist s' = s_hist s) \/ s_ctx s' = c)) /\
  (parts_return E o -> o_procs o = 1 -> r <> None).
Proof.
  unfold initial_evaluation_in, values_so_far, pending_rows. destruct (s_Y s) as [Y|] eqn:Hy.
  - intros [= <- <-]. split; [reflexivity|]. split; [|discriminate]. intros _. exists []. rewrite !app_nil_r. split; [exact Hy|]. split; [reflexivity|]. split; [split; [apply answers_nil | reflexivity]|]. split; [constructor|]. auto.
  - destruct (during E o ask s (s_X s)) as [s1 [|]] eqn:D.
    2:{ intros [= <- <-]. split; [now apply (during_keeps _ _ _ _ _ _ _ D)|]. split; [discriminate|]. intros PR _. now apply during_returns in D. }
    destruct (during_keeps _ _ _ _ _ _ _ D) as ((KX & KY & KC & KT & KS & KN & KR & KH & KK) & _ & _ & _ & KA).
    unfold initial_evaluation. rewrite KY, Hy, KH, KK, KX. destruct (evaluate o (e_clock E) (s_hist s) (s_tick s) (s_X s)) as [[h t] [[[ys cs]|e]|]] eqn:Ev.
    2:{ intros [= <- <-]. sproj. split; [exact KX|]. split; discriminate. }
    2:{ intros [= <- <-]. sproj. split; [exact KX|]. split; [discriminate|]. intros _ P. rewrite (evaluate_seq _ _ _ _ _ P) in Ev. destruct (eval_func _ _ _ _ _) as [[? ?] ?]; discriminate. }
    assert (G : forall s2 : st, s_X s2 = s_X s1 -> s_Y s2 = Some ys -> s_hist s2 = h -> s_ctx s2 = s_ctx s1 ->
      exists ys, s_Y s2 = Some ([] ++ ys) /\ length ys = length (s_X s) /\
      (o_procs o = 1 -> answers (o_fun o) (s_hist s) (s_X s) ys /\ s_hist s2 = s_hist s ++ s_X s) /\
      (stateless (o_fun o) -> 1 <= o_procs o -> values_at (o_fun o) (s_X s) ys) /\
      (forall c, always_asks ask -> asks_with c ask -> o_procs o = 1 -> (s_ctx s2 = s_ctx s /\ s_hist s2 = s_hist s) \/ s_ctx s2 = c)).
    { intros s2 X2 Y2 H2 C2. exists ys. split; [exact Y2|]. split; [now apply evaluate_length in Ev|]. split.
      - intros P. apply evaluate_seq_ok in Ev as [-> An]; [|exact P]. auto.
      - split; [intros Sl P; eapply evaluate_values; eauto|]. intros c A C P. destruct (s_X s) as [|x X] eqn:HX.
        + left. split; [|pose proof Ev as Ev'; apply evaluate_seq_ok in Ev' as [-> _]; [rewrite H2; apply app_nil_r | exact P]].
          rewrite C2. unfold during in D. rewrite Ev in D. apply evaluate_seq_ok in Ev as [-> _]; [|exact P]. rewrite app_nil_r, skipn_all in D. cbn in D. now injection D as <-.
        + right. rewrite C2. refine (proj2 (KA _ _ _ _ P _ eq_refl A) c C). discriminate. }
    sproj. destruct (is_time_cost (s_cost s1)).
    + rewrite ?KX. destruct (update_cost_model _ _ _ _ _) as [c [u|e]].
      * intros [= <- <-]. split; [exact KX|]. split; [|discriminate]. intros _. refine (G _ _ _ _ _); reflexivity.
      * intros [= <- <-]. sproj. split; [exact KX|]. split; discriminate.
    + intros [= <- <-]. split; [exact KX|]. split; [|discriminate]. intros _. refine (G _ _ _ _ _); reflexivity.
Qed.
End P.
