(** Maximisation, construction of the object, cost models. *)
From Coq Require Import String List ZArith QArith Qcanon Bool Lia.
From Verif.Model Require Import Py Space Design Optim Objective BO.
From Verif.Spec Require Import BOSpec.
From Verif.Proof Require Import Num BOP BOLoop BOMain BOMain2.
Import ListNotations.
Local Open Scope nat_scope.

(** ---------------------------------------------------------------- objectives that agree pointwise *)
Definition same_objective (o o' : objective) : Prop :=
  o_procs o = o_procs o' /\ o_fork o = o_fork o' /\ forall h x, o_fun o h x = o_fun o' h x.

Lemma eval_rows_ext f g clock : (forall h x, f h x = g h x) -> forall rows h t, eval_rows f clock h t rows = eval_rows g clock h t rows.
Proof.
  intros E. induction rows as [|x r IH]; intros h t; simpl; [reflexivity|]. rewrite E. destruct (g h x); [|reflexivity]. now rewrite IH.
Qed.
Lemma mapM_ext {A B} (f g : A -> res B) l : (forall a, f a = g a) -> mapM f l = mapM g l.
Proof. intros E. induction l as [|a l IH]; simpl; [reflexivity|]. rewrite E. destruct (g a); simpl; [|reflexivity]. now rewrite IH. Qed.
Lemma evaluate_ext o o' clock h t x : same_objective o o' -> evaluate o clock h t x = evaluate o' clock h t x.
Proof.
  intros (P & F & E). unfold evaluate, parallel_evaluation, eval_func. rewrite P, F.
  rewrite (eval_rows_ext _ _ clock E).
  rewrite (mapM_ext (child (o_fun o) clock h t) (child (o_fun o') clock h t)); [reflexivity|].
  intros a. unfold child. now rewrite (eval_rows_ext _ _ clock E).
Qed.

Section Ext.
Context {M : Type}.
Notation env := (env M).
Notation st := (st M).

Lemma iter_ext (E : env) o o' q mi mt eps z s : same_objective o o' ->
  iter E o mi mt eps z s = iter (with_objective E q) o' mi mt eps z s.
Proof.
  intros S. unfold iter. change (update_model (with_objective E q) s) with (update_model E s).
  destruct (time_left mt (s_cum s)); [|reflexivity]. destruct (update_model E s) as [s1 [[]|e]]; [|reflexivity].
  destruct (_ || _); [reflexivity|].
  change (compute_next_evaluations (with_objective E q) s1 None None) with (compute_next_evaluations E s1 None None).
  destruct (compute_next_evaluations E s1 None None) as [s2 [[b|e]|]]; try reflexivity. cbv zeta.
  destruct (vstack _ b) as [X'|e]; [|reflexivity].
  unfold evaluate_objective. rewrite (evaluate_ext o o') by exact S. reflexivity.
Qed.
Lemma loop_ext (E : env) o o' q mi mt eps z : same_objective o o' -> forall fuel s,
  loop fuel E o mi mt eps z s = loop fuel (with_objective E q) o' mi mt eps z s.
Proof.
  intros S. induction fuel as [|fuel IH]; intros s; [reflexivity|]. rewrite !loop_iter, (iter_ext E o o' q) by exact S.
  destruct (iter _ _ _ _ _ _ _) as [s1 [r|]]; [reflexivity|apply IH].
Qed.
Lemma run_ext fuel (E : env) o o' s mi mt eps ctx : same_objective o o' ->
  run_optimization fuel (with_objective E (Some o)) s mi mt eps ctx = run_optimization fuel (with_objective E (Some o')) s mi mt eps ctx.
Proof.
  intros S. unfold run_optimization. cbn [e_obj with_objective]. unfold initial_evaluation.
  rewrite (evaluate_ext o o') by exact S.
  change (e_clock (with_objective E (Some o))) with (e_clock E). change (e_clock (with_objective E (Some o'))) with (e_clock E).
  change (e_lg (with_objective E (Some o))) with (e_lg E). change (e_lg (with_objective E (Some o'))) with (e_lg E).
  change (e_costfit (with_objective E (Some o))) with (e_costfit E). change (e_costfit (with_objective E (Some o'))) with (e_costfit E).
  set (I := match s_Y (set_ctx (set_params s None) ctx) with Some _ => _ | None => _ end).
  destruct I as [s0 [[[]|e]|]]; try reflexivity. cbv zeta.
  rewrite (loop_ext (with_objective E (Some o)) o o' (Some o')) by exact S. reflexivity.
Qed.
Lemma step_ext (E : env) o o' s op : same_objective o o' ->
  step (with_objective E (Some o)) s op = step (with_objective E (Some o')) s op.
Proof. intros S. destruct op; cbn [step]; [now apply run_ext|reflexivity]. Qed.
Theorem history_ext (E : env) o o' : same_objective o o' -> forall ops s s',
  history_caught (with_objective E (Some o)) s ops s' <-> history_caught (with_objective E (Some o')) s ops s'.
Proof.
  intros S. induction ops as [|op ops IH]; intros s s'; cbn [history_caught]; [reflexivity|].
  split; intros (s1 & r & H & K); exists s1, r; (split; [|now apply IH]).
  - now rewrite <- (step_ext E o o').
  - now rewrite (step_ext E o o').
Qed.

(** ---------------------------------------------------------------- maximize *)
Lemma sign_negation f g : is_negation f g -> forall h x, sign true f h x = g h x.
Proof. intros N h x. rewrite N. unfold sign. destruct (f h x); reflexivity. Qed.

Theorem maximize_trajectory (E : env) a f g fork fuel dr U (m : M) : a_f a = Some f -> a_maximize a = true -> is_negation f g ->
  bayesian_optimization a fork (e_clock E) fuel dr U m = bayesian_optimization (minimising a g) fork (e_clock E) fuel dr U m /\
  forall ops s s', history_caught (with_objective E (the_objective a fork)) s ops s' <->
                   history_caught (with_objective E (the_objective (minimising a g) fork)) s ops s'.
Proof.
  intros AF MX NG.
  assert (S : exists o o', the_objective a fork = Some o /\ the_objective (minimising a g) fork = Some o' /\ same_objective o o').
  { unfold the_objective. rewrite AF, MX. cbn. do 2 eexists. split; [reflexivity|]. split; [reflexivity|].
    split; [reflexivity|]. split; [reflexivity|]. exact (sign_negation f g NG). }
  destruct S as (o & o' & E1 & E2 & S). split.
  - unfold bayesian_optimization. rewrite E1, E2. cbn [a_cost minimising].
    assert (D : init_design_chooser a (Some o) (e_clock E) fuel dr U = init_design_chooser (minimising a g) (Some o') (e_clock E) fuel dr U).
    { unfold init_design_chooser. cbn [a_X a_Y a_design a_space a_numdata minimising].
      destruct (a_X a) as [X|]; [destruct (a_Y a); [reflexivity|]; now rewrite (evaluate_ext o o') by exact S|].
      destruct (initial_design _ _ _ _ _ _) as [[X|e]|]; try reflexivity. now rewrite (evaluate_ext o o') by exact S. }
    now rewrite D.
  - intros ops s s'. rewrite E1, E2. now apply history_ext.
Qed.

Lemma values_sign f rows ys : values_at (sign true f) rows ys -> exists fs, values_at f rows fs /\ ys = map Qcopp fs.
Proof.
  unfold values_at. intros V. induction V as [|x y rows ys H V IH].
  - exists []. split; [constructor|reflexivity].
  - destruct IH as (fs & A & ->). unfold sign in H.
    destruct (f [] x) as [v|e] eqn:F; [|specialize (H []); rewrite F in H; discriminate].
    exists ((- y)%Qc :: fs). split.
    + constructor; [|exact A]. intros h. specialize (H h). destruct (f h x) as [w|]; [|discriminate]. injection H as <-. now rewrite Qcopp_involutive.
    + cbn. now rewrite Qcopp_involutive.
Qed.
Lemma sign_stateless b f : stateless f -> stateless (sign b f).
Proof. intros S h h' x. unfold sign. destruct b; [|apply S]. now rewrite (S h h'). Qed.

(** What the constructor does. *)
Lemma construct_spec a fork clock fuel dr U (m : M) s inner o : the_objective a fork = Some o ->
  bayesian_optimization a fork clock fuel dr U m = Some (Ok (s, inner)) ->
  inner = cost_model (a_cost a) /\ s_cost s = CostObject inner /\
  exists X Y, s_X s = X /\ s_Y s = Some Y /\
    match a_X a, a_Y a with
    | Some X0, Some Y0 => X = X0 /\ Y = Y0 /\ s_hist s = []
    | Some X0, None => X = X0 /\ exists t cs, evaluate o clock [] 0 X = (s_hist s, t, Some (Ok (Y, cs)))
    | None, _ => initial_design fuel (a_design a) (a_space a) dr U (a_numdata a) = Some (Ok X) /\
                 exists t cs, evaluate o clock [] 0 X = (s_hist s, t, Some (Ok (Y, cs)))
    end.
Proof.
  intros O. unfold bayesian_optimization. rewrite O. unfold init_design_chooser.
  destruct (a_X a) as [X|].
  - destruct (a_Y a) as [Y|].
    + cbn. intros [= <- <-]. split; [reflexivity|]. split; [reflexivity|]. exists X, Y. cbn. auto.
    + destruct (evaluate o clock [] 0 X) as [[h t] [[[ys cs]|e]|]] eqn:EV; cbn; try discriminate.
      intros [= <- <-]. split; [reflexivity|]. split; [reflexivity|]. exists X, ys. cbn. rewrite EV. eauto 10.
  - destruct (initial_design _ _ _ _ _ _) as [[X|e]|]; try discriminate.
    destruct (evaluate o clock [] 0 X) as [[h t] [[[ys cs]|e]|]] eqn:EV; cbn; try discriminate.
    intros [= <- <-]. split; [reflexivity|]. split; [reflexivity|]. exists X, ys. cbn. rewrite EV. eauto 10.
Qed.

Theorem maximize_values (E : env) a f fork fuel dr U (m : M) s inner ops s' :
  a_f a = Some f -> a_maximize a = true -> stateless f -> 1 <= a_batch_size a -> (a_X a = None \/ a_Y a = None) ->
  bayesian_optimization a fork (e_clock E) fuel dr U m = Some (Ok (s, inner)) -> e_obj E = the_objective a fork ->
  history E s ops s' ->
  exists fs, values_at f (s_X s') fs /\ s_Y s' = Some (map Qcopp fs).
Proof.
  intros AF MX ST BS XY B EO H.
  assert (O : the_objective a fork = Some (mk_obj (sign true f) (a_batch_size a) fork)) by (unfold the_objective; now rewrite AF, MX).
  destruct (construct_spec _ _ _ _ _ _ _ _ _ _ O B) as (_ & _ & X & Y & SX & SY & D).
  assert (V : values_at (sign true f) X Y).
  { assert (K : exists h t cs, evaluate (mk_obj (sign true f) (a_batch_size a) fork) (e_clock E) [] 0 X = (h, t, Some (Ok (Y, cs)))).
    { destruct (a_X a) as [X0|]; [destruct (a_Y a); [destruct XY; discriminate|]|]; destruct D as (_ & t & cs & D); eauto. }
    destruct K as (h & t & cs & EV). refine (evaluate_values (mk_obj (sign true f) (a_batch_size a) fork) _ _ _ _ _ _ _ _ _ _ EV); [exact (sign_stateless true f ST)|exact BS]. }
  assert (V' : exists Y', s_Y s' = Some Y' /\ values_at (sign true f) (s_X s') Y').
  { destruct ops as [|op ops]; [cbn in H; subst s'; exists Y; rewrite SX; auto|].
    rewrite O in EO. destruct (history_data E _ EO _ _ _ H ltac:(discriminate)) as (new & ys & X' & Y' & _ & _ & VA).
    specialize (VA (sign_stateless true f ST) BS). unfold values_so_far, pending_rows in *. rewrite SY in *. cbn [app] in VA.
    exists (Y ++ ys). split; [exact Y'|]. rewrite X', SX. now apply values_at_app. }
  destruct V' as (Y' & SY' & V'). apply values_sign in V'. destruct V' as (fs & A & ->). eauto.
Qed.
Lemma values_nth f rows ys i x y : values_at f rows ys -> nth_error rows i = Some x -> nth_error ys i = Some y -> forall h, f h x = Ok y.
Proof.
  intros V. revert i. induction V as [|a b rows ys H V IH]; intros [|i] A B; try discriminate; cbn in A, B.
  - injection A as <-. injection B as <-. exact H.
  - eauto.
Qed.
Lemma max_of_min m l : is_min m (map Qcopp l) -> is_max (- m) l.
Proof.
  intros [I L]. apply in_map_iff in I. destruct I as (v & <- & I). rewrite Qcopp_involutive. split; [exact I|].
  intros y Iy. rewrite <- (Qcopp_involutive y), <- (Qcopp_involutive v). apply Qcopp_le_compat. apply L. apply in_map_iff. eauto.
Qed.

(** ---------------------------------------------------------------- without time no acquisition *)
Theorem no_time_no_acquisition fuel (E : env) s mi mt eps ctx s' o t : e_obj E = Some o -> time_limit mt t -> (t <= 0)%Qc ->
  run_optimization fuel E s mi mt eps ctx = (s', Some (Ok tt)) ->
  s_X s' = s_X s /\ s_num s' = 0 /\ s_updates s' = s_updates s /\ s_model s' = s_model s.
Proof.
  intros O L T H. apply (run_cases _ _ _ _ _ _ _ _ _ _ O) in H.
  destruct H as (s0 & r0 & I & [(N & _ & <-)|(-> & n & s1 & s2 & r1 & ST & IT & [(N & _ & <-)|(-> & q & CR & [= <-])])]); try now contradiction N.
  apply initial_ok in I. destruct I as (Y0 & _ & SX & _ & _ & SU & SM & _). sproj in *.
  destruct IT as [(_ & IT)|(_ & _ & ?)]; [|discriminate].
  apply (limit_time mi) in L.
  assert (TL : time_left (snd (stop_conditions mi mt)) (s_cum (started E s0)) = false).
  { unfold started. sproj. rewrite L. cbn [time_left]. destruct (qclt q0 t) eqn:Q; [|reflexivity]. apply qclt_spec in Q. exfalso. exact (Qclt_not_le _ _ Q T). }
  assert (K : s1 = started E s0 /\ s2 = started E s0).
  { inversion ST as [|? ? s3 ? GO]; subst; [|unfold iter in GO; rewrite TL in GO; discriminate]. split; [reflexivity|].
    unfold iter in IT. rewrite TL in IT. congruence. }
  destruct K as [-> ->]. apply compute_results_spec in CR. destruct CR as [CR _]. rewrite CR. unfold started. sproj. auto.
Qed.
Theorem no_limits_no_acquisition fuel (E : env) s eps ctx s' o : e_obj E = Some o ->
  run_optimization fuel E s LNone LNone eps ctx = (s', Some (Ok tt)) -> s_X s' = s_X s /\ s_num s' = 0.
Proof.
  intros O H. destruct (run_stops _ _ _ _ _ _ _ _ _ O H) as (B & _ & _).
  destruct (run_data _ _ _ _ _ _ _ _ _ O H) as (bs & ys & X' & _ & N & _).
  assert (Z : s_num s' = 0).
  { destruct (s_num s') as [|k] eqn:K; [reflexivity|]. specialize (B 0%Qc 0 (or_intror (conj eq_refl (conj eq_refl eq_refl))) (Nat.lt_0_succ k)). discriminate B. }
  split; [|exact Z]. rewrite Z in N. destruct bs; [|discriminate]. rewrite X'. cbn. apply app_nil_r.
Qed.

Theorem maximize_reports (E : env) a f fork fuel dr U (m : M) s inner ops s1 fl mi mt eps ctx s' :
  a_f a = Some f -> a_maximize a = true -> stateless f -> 1 <= a_batch_size a -> (a_X a = None \/ a_Y a = None) ->
  bayesian_optimization a fork (e_clock E) fuel dr U m = Some (Ok (s, inner)) -> e_obj E = the_objective a fork ->
  history E s ops s1 -> run_optimization fl E s1 mi mt eps ctx = (s', Some (Ok tt)) ->
  exists fs y_best x_opt fx_opt, values_at f (s_X s') fs /\ s_Y s' = Some (map Qcopp fs) /\
    s_report s' = Some (y_best, x_opt, fx_opt) /\ is_max (- fx_opt) fs /\ In x_opt (s_X s') /\ (forall h, f h x_opt = Ok (- fx_opt)%Qc).
Proof.
  intros AF MX ST BS XY B EO H R.
  assert (H2 : history E s (ops ++ [ORun fl mi mt eps ctx]) s').
  { clear -H R. revert s H. induction ops as [|op ops IH]; intros s H; cbn in *.
    - subst. exists s'. auto.
    - destruct H as (s2 & S & H). exists s2. split; [exact S|now apply IH]. }
  destruct (maximize_values E a f fork fuel dr U m s inner _ s' AF MX ST BS XY B EO H2) as (fs & V & SY).
  assert (O : e_obj E = Some (mk_obj (sign true f) (a_batch_size a) fork)) by (rewrite EO; unfold the_objective; now rewrite AF, MX).
  destruct (run_reports _ _ _ _ _ _ _ _ _ O R) as (Y & yb & x & mm & i & SY' & RP & MIN & _ & NY & NX & _).
  rewrite SY in SY'. injection SY' as <-. exists fs, yb, x, mm. split; [exact V|]. split; [exact SY|]. split; [exact RP|].
  split; [now apply max_of_min|]. split; [eapply nth_error_In; eauto|].
  rewrite nth_error_map in NY. destruct (nth_error fs i) as [v|] eqn:NF; [|discriminate]. injection NY as <-. rewrite Qcopp_involutive.
  eapply values_nth; eauto.
Qed.

(** ---------------------------------------------------------------- the constructor *)
Theorem without_objective a fork clock fuel dr U (m : M) : a_f a = None ->
  (forall X Y, a_X a = Some X -> a_Y a = Some Y -> exists s inner,
     bayesian_optimization a fork clock fuel dr U m = Some (Ok (s, inner)) /\ s_X s = X /\ s_Y s = Some Y /\
     forall (E : env) fl mi mt eps ctx, e_obj E = the_objective a fork ->
       run_optimization fl E s mi mt eps ctx = (s, Some (Raise InvalidConfigError))) /\
  (a_X a = None \/ a_Y a = None -> bayesian_optimization a fork clock fuel dr U m = Some (Raise InvalidConfigError)).
Proof.
  intros AF. assert (O : the_objective a fork = None) by (unfold the_objective; now rewrite AF). unfold bayesian_optimization. rewrite O.
  split.
  - intros X Y AX AY. unfold init_design_chooser. rewrite AX, AY. cbn. do 2 eexists. split; [reflexivity|]. split; [reflexivity|]. split; [reflexivity|].
    intros E fl mi mt eps ctx EO. unfold run_optimization. now rewrite EO.
  - unfold init_design_chooser. intros [-> | ->]; [reflexivity|]. destruct (a_X a); reflexivity.
Qed.
Theorem with_objective_data a fork clock fuel dr U (m : M) s inner f : a_f a = Some f ->
  bayesian_optimization a fork clock fuel dr U m = Some (Ok (s, inner)) ->
  exists Y, s_Y s = Some Y /\
    (forall X0 Y0, a_X a = Some X0 -> a_Y a = Some Y0 -> s_X s = X0 /\ Y = Y0 /\ s_hist s = []) /\
    (forall X0, a_X a = Some X0 -> s_X s = X0) /\
    (a_X a = None -> initial_design fuel (a_design a) (a_space a) dr U (a_numdata a) = Some (Ok (s_X s))) /\
    (a_X a = None \/ a_Y a = None ->
       length Y = length (s_X s) /\
       (a_batch_size a = 1 -> s_hist s = s_X s /\ answers (sign (a_maximize a) f) [] (s_X s) Y) /\
       (stateless f -> 1 <= a_batch_size a -> values_at (sign (a_maximize a) f) (s_X s) Y)).
Proof.
  intros AF B. set (o := mk_obj (sign (a_maximize a) f) (a_batch_size a) fork).
  assert (O : the_objective a fork = Some o) by (unfold the_objective; now rewrite AF).
  destruct (construct_spec _ _ _ _ _ _ _ _ _ _ O B) as (_ & _ & X & Y & SX & SY & D). exists Y. split; [exact SY|]. rewrite SX.
  assert (K : forall h t cs, evaluate o clock [] 0 X = (h, t, Some (Ok (Y, cs))) ->
    length Y = length X /\ (a_batch_size a = 1 -> h = X /\ answers (sign (a_maximize a) f) [] X Y) /\
    (stateless f -> 1 <= a_batch_size a -> values_at (sign (a_maximize a) f) X Y)).
  { intros h t cs EV. split; [eapply evaluate_length; eauto|]. split.
    - intros P. apply (evaluate_seq_ok o _ _ _ _ _ _ _ _ P) in EV. exact EV.
    - intros S N. apply (evaluate_values o _ _ _ _ _ _ _ _ (sign_stateless _ _ S) N EV). }
  split; [|split; [|split]].
  - intros X0 Y0 AX AY. rewrite AX, AY in D. destruct D as (-> & -> & ->). auto.
  - intros X0 AX. rewrite AX in D. destruct (a_Y a); tauto.
  - intros AX. rewrite AX in D. tauto.
  - intros N. destruct (a_X a) as [X0|]; [destruct (a_Y a); [destruct N; discriminate|]|]; destruct D as (_ & t & cs & D); exact (K _ _ _ D).
Qed.
Theorem interval_zero fuel (E : env) s mi mt eps ctx o Y :
  e_obj E = Some o -> s_Y s = Some Y -> e_interval E = 0%Z -> 0 < fuel -> (forall t, mt = LFin t -> (0 < t)%Qc) ->
  exists s', run_optimization fuel E s mi mt eps ctx = (s', Some (Raise ZeroDivisionError)).
Proof.
  intros O SY I F TL. unfold run_optimization. rewrite O. unfold initial_evaluation. sproj. rewrite SY. cbv beta iota zeta.
  destruct fuel as [|fuel]; [lia|]. rewrite loop_iter. unfold iter, update_model. rewrite I. cbn [Z.eqb]. sproj.
  assert (TLT : time_left (snd (stop_conditions mi mt)) q0 = true).
  { unfold time_left. destruct (snd (stop_conditions mi mt)) as [t|] eqn:SC; [|reflexivity]. apply limit_time in SC. apply qclt_spec. apply TL. exact SC. }
  rewrite TLT. eauto.
Qed.

(** ---------------------------------------------------------------- cost models *)
Lemma update_cost_object lg fit c x cs : update_cost_model lg fit (CostObject c) x cs = (CostObject c, Ok tt).
Proof. reflexivity. Qed.
Lemma iter_cost_object (E : env) o mi mt eps z s s' r c : s_cost s = CostObject c ->
  iter E o mi mt eps z s = (s', r) -> s_cost s' = CostObject c.
Proof.
  intros C. destruct r as [r|]; intros I.
  - apply iter_stop in I.
    destruct I as [(_ & -> & _)|[(e & UM & _)|[(UM & _)|[(s3 & s4 & q & _ & _ & _ & _ & _ & D & _)|(s3 & s4 & b & h & t & q & _ & _ & _ & _ & _ & _ & _ & _ & _ & _ & _ & _ & G)]]]];
      try congruence; try (apply update_model_spec in UM; destruct UM as (m & p & U & -> & _); exact C).
    destruct G as [(_ & _ & G)|[(e & _ & _ & G)|(ys & cs & e & _ & _ & G)]]; try congruence.
    rewrite C in G. discriminate.
  - apply iter_go in I. destruct I as (m & p & U & s3 & b & ys & cs & h & t & c' & _ & _ & _ & _ & _ & _ & UC & m2 & _ & ->). sproj.
    rewrite C in UC. injection UC as <-. reflexivity.
Qed.
Lemma step_cost_object (E : env) s op s' r c : s_cost s = CostObject c -> step E s op = (s', r) -> s_cost s' = CostObject c.
Proof.
  intros C. destruct op as [fuel mi mt eps ctx|ctx p i]; cbn [step].
  - destruct (e_obj E) as [o|] eqn:O; [|unfold run_optimization; rewrite O; intros [= <- <-]; exact C].
    intros H. apply (run_cases _ _ _ _ _ _ _ _ _ _ O) in H. destruct H as (s0 & r0 & I & H).
    assert (C0 : s_cost s0 = CostObject c).
    { clear H. unfold initial_evaluation in I. sproj in *. destruct (s_Y s); [injection I as <- <-; exact C|].
      destruct (evaluate _ _ _ _ _) as [[h t] [[[ys cs]|e]|]]; [|injection I as <- <-; exact C|injection I as <- <-; exact C].
      cbv zeta in I. sproj in *. rewrite C in I. cbn [is_time_cost] in I. injection I as <- <-. exact C. }
    destruct H as [(_ & -> & _)|(_ & n & s1 & s2 & r1 & ST & IT & H)]; [exact C0|].
    assert (C1 : s_cost s1 = CostObject c).
    { assert (CS : s_cost (started E s0) = CostObject c) by exact C0. clear -ST CS. induction ST as [|n s s1 s2 GO ST IH]; [exact CS|]. apply IH. eapply iter_cost_object; eauto. }
    assert (C2 : s_cost s2 = CostObject c) by (destruct IT as [(_ & IT)|(_ & -> & _)]; [eapply iter_cost_object; eauto|exact C1]).
    destruct H as [(_ & -> & _)|(_ & q & CR & _)]; [exact C2|]. apply compute_results_spec in CR. destruct CR as [CR _]. rewrite CR. exact C2.
  - destruct (suggest_next_locations E s ctx p i) as [s1 r1] eqn:S. intros [= <- _].
    apply suggest_frame in S. destruct S as (_ & _ & _ & _ & S & _). congruence.
Qed.
Lemma history_cost_object (E : env) c : forall ops s s', s_cost s = CostObject c -> history_caught E s ops s' -> s_cost s' = CostObject c.
Proof.
  induction ops as [|op ops IH]; intros s s' C H; [cbn in H; now subst|].
  destruct H as (s1 & r & S & H). apply (IH s1); [|exact H]. eapply step_cost_object; eauto.
Qed.
Theorem double_wrap_untrained (E : env) a fork clock fuel dr U (m : M) s inner : a_cost a = ArgTime ->
  bayesian_optimization a fork clock fuel dr U m = Some (Ok (s, inner)) ->
  forall ops s', history_caught E s ops s' ->
    s_cost s' = CostObject inner /\
    forall predict ex x, cost_withGradients predict ex inner x = Raise AttributeError.
Proof.
  intros AC B.
  assert (I : inner = CostTime 0 None /\ s_cost s = CostObject (CostTime 0 None)).
  { unfold bayesian_optimization in B. destruct (init_design_chooser _ _ _ _ _ _) as [[h t] [[[X Y]|e]|]]; cbn in B; try discriminate.
    injection B as <- <-. rewrite AC. auto. }
  destruct I as [-> C]. intros ops s' H. split; [|reflexivity]. eapply history_cost_object; eauto.
Qed.

Theorem fixed_costs (E : env) a fork clock fuel dr U (m : M) s inner :
  bayesian_optimization a fork clock fuel dr U m = Some (Ok (s, inner)) ->
  forall ops s', history_caught E s ops s' ->
    s_cost s' = CostObject inner /\ forall predict ex x,
    (a_cost a = ArgNone -> cost_withGradients predict ex inner x = Ok (z2q 1, repeat (z2q 0) (length x))) /\
    (forall f, a_cost a = ArgFun f -> cost_withGradients predict ex inner x = Ok (f x)).
Proof.
  intros B.
  assert (I : inner = cost_model (a_cost a) /\ s_cost s = CostObject inner).
  { unfold bayesian_optimization in B. destruct (init_design_chooser _ _ _ _ _ _) as [[h t] [[[X Y]|e]|]]; cbn in B; try discriminate.
    injection B as <- <-. auto. }
  destruct I as [-> C]. intros ops s' H. split; [eapply history_cost_object; eauto|]. intros predict ex x. split.
  - intros ->. cbn. f_equal. f_equal. induction x as [|v x IH]; [reflexivity|]. cbn. now rewrite IH.
  - intros f ->. reflexivity.
Qed.

(** A time-based cost model that is not wrapped learns every evaluated row. *)
Definition learned (T : mat) (c : costmodel) : Prop :=
  exists k C, c = CostTime k (match k with O => None | S _ => Some (T, C) end) /\ (k = 0 -> T = []) /\ length C = length T.

Lemma learned_update lg fit T c b l c' : learned T c -> length l = length b ->
  update_cost_model lg fit c b (CList l) = (c', Ok tt) -> learned (T ++ b) c'.
Proof.
  intros (k & C & -> & Z & L) LB. unfold update_cost_model. cbn [cost_column].
  destruct k as [|k].
  - rewrite (Z eq_refl). cbn [app]. intros U. destruct (gp_accepts _ _) eqn:G; [|discriminate].
    destruct (fit b _); [discriminate|]. injection U as <-. exists 1, (map (map lg) (map (fun x => [x]) l)). split; [reflexivity|].
    split; [discriminate|]. now rewrite !map_length.
  - destruct (vstack T b) as [X1|e] eqn:V1; cbn [bind]; [|discriminate]. apply vstack_app in V1. subst X1.
    destruct (vstack C _) as [C1|e] eqn:V2; cbn [bind]; [|discriminate]. apply vstack_app in V2. subst C1.
    destruct (gp_accepts _ _) eqn:G; [|discriminate]. destruct (fit _ _); [discriminate|]. intros U. injection U as <-.
    exists (S (S k)), (C ++ map (map lg) (map (fun x => [x]) l)). split; [reflexivity|]. split; [discriminate|]. rewrite !app_length, !map_length. unfold mat, vec in *. lia.
Qed.
Lemma evaluate_costs o clock h t x h' t' ys cs : o_procs o = 1 ->
  evaluate o clock h t x = (h', t', Some (Ok (ys, cs))) -> exists l, cs = CList l /\ length l = length x.
Proof.
  intros P. rewrite evaluate_seq by exact P. unfold eval_func.
  destruct (eval_rows (o_fun o) clock h t x) as [[h1 t1] [l|e]] eqn:R; [|discriminate]. intros E. injection E as _ _ _ <-.
  exists (map snd l). split; [reflexivity|]. rewrite map_length.
  apply eval_rows_spec in R. destruct R as (_ & [L _] & _). rewrite map_length in L. exact L.
Qed.
Lemma iter_learned (E : env) o mi mt eps z s s' p : o_procs o = 1 -> p <= length (s_X s) -> learned (skipn p (s_X s)) (s_cost s) ->
  iter E o mi mt eps z s = (s', None) -> p <= length (s_X s') /\ learned (skipn p (s_X s')) (s_cost s').
Proof.
  intros P LP LC I. apply iter_go in I. destruct I as (m & pp & U & s3 & b & ys & cs & h & t & c' & _ & _ & _ & _ & _ & EV & UC & m2 & _ & ->). sproj.
  destruct (evaluate_costs _ _ _ _ _ _ _ _ _ P EV) as (l & -> & LL). split; [rewrite app_length; unfold mat, vec in *; lia|].
  rewrite skipn_app. replace (p - length (s_X s)) with 0 by (unfold mat, vec in *; lia). cbn [skipn]. eapply learned_update; eauto.
Qed.
Lemma step_learned (E : env) o s op s' p : e_obj E = Some o -> o_procs o = 1 ->
  (s_Y s = None -> p = 0 /\ s_cost s = CostTime 0 None) ->
  (s_Y s <> None -> p <= length (s_X s) /\ learned (skipn p (s_X s)) (s_cost s)) ->
  step E s op = (s', Some (Ok tt)) ->
  s_Y s' <> None /\ p <= length (s_X s') /\ learned (skipn p (s_X s')) (s_cost s').
Proof.
  intros O P HN HS ST. pose proof (step_data _ _ _ _ _ O ST) as (new & ys & _ & SY' & _).
  split; [rewrite SY'; discriminate|]. clear new ys SY'. revert ST. destruct op as [fuel mi mt eps ctx|ctx pe i]; cbn [step].
  - intros H. apply (run_cases _ _ _ _ _ _ _ _ _ _ O) in H.
    destruct H as (s0 & r0 & I & [(N & _ & <-)|(-> & n & s1 & s2 & r1 & ST & IT & [(N & _ & <-)|(-> & q & CR & [= <-])])]); try now contradiction N.
    assert (A : p <= length (s_X s0) /\ learned (skipn p (s_X s0)) (s_cost s0)).
    { unfold initial_evaluation in I. sproj in *. destruct (s_Y s) as [Y|] eqn:SY.
      - injection I as <-. sproj. apply HS. discriminate.
      - destruct (HN eq_refl) as [-> C]. destruct (evaluate _ _ _ _ _) as [[h t] [[[ys cs]|e]|]] eqn:EV; try discriminate.
        cbv zeta in I. sproj in *. rewrite C in I. cbn [is_time_cost] in I.
        destruct (update_cost_model _ _ _ _ _) as [c [[]|e]] eqn:U; [|discriminate]. injection I as <-. sproj. split; [lia|].
        destruct (evaluate_costs _ _ _ _ _ _ _ _ _ P EV) as (l & -> & LL). cbn [skipn].
        apply (learned_update _ _ [] _ _ _ _ (ex_intro _ 0 (ex_intro _ [] (conj eq_refl (conj (fun _ => eq_refl) eq_refl)))) LL U). }
    assert (B : p <= length (s_X s1) /\ learned (skipn p (s_X s1)) (s_cost s1)).
    { assert (AS : p <= length (s_X (started E s0)) /\ learned (skipn p (s_X (started E s0))) (s_cost (started E s0))) by exact A.
      clear -ST AS P. induction ST as [|n s s1 s2 GO ST IH]; [exact AS|]. apply IH. destruct AS. eapply iter_learned; eauto. }
    destruct IT as [(_ & IT)|(_ & _ & ?)]; [|discriminate]. apply iter_stop_ok in IT. destruct IT as (EX & _ & _ & _ & _ & EC & _).
    apply compute_results_spec in CR. destruct CR as [CR _]. rewrite CR. sproj. rewrite EX, EC. exact B.
  - destruct (suggest_next_locations E s ctx pe i) as [s1 r] eqn:S. intros H. injection H as -> R.
    destruct (suggest_frame _ _ _ _ _ _ _ S) as (A & B & C & _ & D & _ & _ & _ & U & _ & F).
    destruct r as [[b|e]|]; try discriminate. destruct (F b eq_refl) as (Y & Xm & Ym & SY & _). rewrite A, D. apply HS. congruence.
Qed.
Theorem modular_cost (E : env) o : e_obj E = Some o -> o_procs o = 1 -> forall ops s s',
  s_cost s = CostTime 0 None -> history E s ops s' -> ops <> [] ->
  learned (skipn (match s_Y s with None => 0 | Some _ => length (s_X s) end) (s_X s')) (s_cost s').
Proof.
  intros O P. set (G := fun p (s : st) => (s_Y s = None -> p = 0 /\ s_cost s = CostTime 0 None) /\ (s_Y s <> None -> p <= length (s_X s) /\ learned (skipn p (s_X s)) (s_cost s))).
  assert (K : forall p ops s s', G p s -> history E s ops s' -> ops <> [] -> learned (skipn p (s_X s')) (s_cost s')).
  { intros p. induction ops as [|op ops IH]; intros s s' [G1 G2] H NE; [now contradiction NE|].
    destruct H as (s1 & S & H). destruct (step_learned _ _ _ _ _ p O P G1 G2 S) as (A & B & C).
    destruct ops as [|op2 ops]; [cbn in H; subst s1; exact C|]. apply (IH s1 s'); [|exact H|discriminate]. split; [intros Z; congruence|auto]. }
  intros ops s s' C H NE. apply (K _ ops s s'); [|exact H|exact NE]. split.
  - intros ->. auto.
  - destruct (s_Y s); [|intros Z; now contradiction Z]. intros _. split; [lia|]. rewrite skipn_all2 by lia. rewrite C.
    exists 0, []. auto.
Qed.

(** Any sequence of sequentially measured updates. *)
Theorem cost_accumulates lg fit : forall ups c', ups <> [] ->
  Forall (fun u => exists l, snd u = CList l /\ length l = length (fst u)) ups ->
  cost_history lg fit (CostTime 0 None) ups c' ->
  c' = CostTime (length ups) (Some (concat (map fst ups),
         map (fun q => [lg q]) (concat (map (fun u => match snd u with CList l => l | CMat _ => [] end) ups)))).
Proof.
  assert (K : forall ups k T C c', Forall (fun u => exists l, snd u = CList l /\ length l = length (fst u)) ups ->
    (k = 0 -> T = [] /\ C = []) ->
    cost_history lg fit (CostTime k (match k with O => None | S _ => Some (T, C) end)) ups c' ->
    c' = CostTime (k + length ups) (match k + length ups with O => None | S _ => Some (T ++ concat (map fst ups),
         C ++ map (fun q => [lg q]) (concat (map (fun u => match snd u with CList l => l | CMat _ => [] end) ups))) end)).
  { induction ups as [|[x cs] ups IH]; intros k T C c' F Z H.
    - cbn in H. subst c'. cbn. rewrite !app_nil_r, Nat.add_0_r. reflexivity.
    - inversion F as [|? ? (l & E & L) F2]; subst. cbn [snd fst] in *. subst cs. destruct H as (c1 & U & H).
      unfold update_cost_model in U. cbn [cost_column] in U.
      assert (EC : map (map lg) (map (fun x => [x]) l) = map (fun q => [lg q]) l) by (rewrite map_map; reflexivity). rewrite EC in U. clear EC.
      assert (C1 : c1 = CostTime (S k) (Some (T ++ x, C ++ map (fun q => [lg q]) l))).
      { destruct k as [|k].
        - destruct (Z eq_refl) as [-> ->]. destruct (gp_accepts _ _); [|discriminate]. destruct (fit _ _); [discriminate|]. injection U as <-. reflexivity.
        - destruct (vstack T x) as [X1|] eqn:V1; cbn [bind] in U; [|discriminate]. apply vstack_app in V1. subst X1.
          destruct (vstack C _) as [X1|] eqn:V2; cbn [bind] in U; [|discriminate]. apply vstack_app in V2. subst X1.
          destruct (gp_accepts _ _); [|discriminate]. destruct (fit _ _); [discriminate|]. injection U as <-. reflexivity. }
      subst c1. apply (IH (S k) (T ++ x) (C ++ map (fun q => [lg q]) l)) in H; [|exact F2|discriminate]. rewrite H.
      cbn [length map concat fst snd]. rewrite !map_app, !app_assoc. replace (k + S (length ups)) with (S k + length ups) by lia. reflexivity. }
  intros ups c' NE F H. apply (K ups 0 [] []) in H; [|exact F|auto]. cbn [plus app] in H. destruct ups; [now contradiction NE|exact H].
Qed.

(** Costs measured in parallel. *)
Lemma concat_ones (x : mat) : concat (map (fun _ => [q1]) x) = repeat q1 (length x).
Proof. induction x as [|a x IH]; [reflexivity|]. cbn. now rewrite IH. Qed.

Theorem parallel_cost_first lg fit (x : mat) c r :
  update_cost_model lg fit (CostTime 0 None) x (CMat (map (fun _ => [q1]) x)) = (c, r) ->
  (length x <> 1 -> r = Raise AssertionError /\
     forall ups c', cost_history_caught lg fit c ups c' -> c' = c /\ (ups <> [] -> ~ cost_history lg fit c ups c')) /\
  (length x = 1 -> c = CostTime 1 (Some (x, [[lg q1]])) /\ r = match fit x [[lg q1]] with None => Ok tt | Some e => Raise e end).
Proof.
  unfold update_cost_model. cbn [cost_column map]. rewrite concat_ones. unfold gp_accepts. cbn [length].
  destruct (Nat.eqb_spec (length x) 1) as [L|L]; intros H.
  - injection H as <- <-. split; [intros N; now contradiction N|]. intros _. rewrite L. cbn. auto.
  - injection H as <- <-. split; [|intros N; now contradiction L]. intros _. split; [reflexivity|].
    assert (K : forall ups c', cost_history_caught lg fit (CostTime 1 None) ups c' -> c' = CostTime 1 None).
    { induction ups as [|[y cs] ups IH]; intros c' H; [exact H|]. destruct H as (c1 & r1 & U & H). unfold update_cost_model in U. injection U as <- <-. now apply IH. }
    intros ups c' H. split; [now apply (K ups)|]. intros NE H2. destruct ups as [|[y cs] ups]; [now contradiction NE|].
    destruct H2 as (c1 & U & _). discriminate.
Qed.
Theorem parallel_cost_later lg fit k X0 C0 (x : mat) : C0 <> [] -> Forall (fun r => length r = 1) C0 ->
  length x <> 1 -> exists e, update_cost_model lg fit (CostTime (S k) (Some (X0, C0))) x (CMat (map (fun _ => [q1]) x)) =
    (CostTime (S k) (Some (X0, C0)), Raise e) /\ (e = ValueError).
Proof.
  intros NE F L. unfold update_cost_model. cbn [cost_column map]. rewrite concat_ones.
  destruct (vstack X0 x) as [X1|e] eqn:V1; cbn [bind].
  - assert (V2 : vstack C0 [map lg (repeat q1 (length x))] = Raise ValueError).
    { unfold vstack. destruct (widths_agree C0 _) eqn:W; [|reflexivity]. exfalso. unfold widths_agree in W.
      destruct C0 as [|r0 C0]; [now contradiction NE|]. cbn [app] in W. inversion F as [|? ? F1 F2]; subst.
      rewrite forallb_forall in W. specialize (W (map lg (repeat q1 (length x))) ltac:(apply in_or_app; right; now left)).
      apply Nat.eqb_eq in W. rewrite map_length, repeat_length in W. lia. }
    rewrite V2. cbn [bind]. exists ValueError. auto.
  - exists e. split; [reflexivity|]. now apply vstack_err in V1.
Qed.
End Ext.
