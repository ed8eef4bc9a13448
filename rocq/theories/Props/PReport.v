(** C63, C64, C78: reports and tables.  Specification: Spec/ReportSpec.v, Spec/BOSpec.v.  Model: Model/Report.v. *)
From Coq Require Import String List Bool Arith Lia ZArith QArith Qcanon.
From Verif.Model Require Import Py Space Design Optim Objective BO Report.
From Verif.Spec Require Import SpaceSpec BOSpec ReportSpec Examples BOExamples.
From Verif.Proof Require Import DesignP BOMain BOMain2 BOExtra ReportP.
Import ListNotations.
Local Open Scope nat_scope.
Local Open Scope string_scope.
Local Open Scope list_scope.

(** ---------------------------------------------------------------- C63 *)
(** After a finished run of a BayesianOptimization object the report is written and shows the optimum, the number of samples, whether
    the iterations were used up, the kinds of variables. *)
Theorem C63_report_of_a_finished_run : forall M fuel (E : env M) s max_iter max_time eps ctx s' o u,
  e_obj E = Some o -> run_optimization fuel E s max_iter max_time eps ctx = (s', Some (Ok tt)) ->
  sp_dim (e_space E) = length (kinds (e_space E)) ->
  exists w answer y_best x_opt fx_opt,
    save_report (object Bayesian u (e_space E) s' (Some (eps, stop_conditions max_iter max_time))) = (w, None) /\
    s_report s' = Some (y_best, x_opt, fx_opt) /\
    shows w "Value at minimum:" [FQ fx_opt] /\ shows w "Best found minimum location:" [FRow x_opt] /\
    shows w "Optimization completed:" [FStr answer; FNat (length (s_X s'))] /\
    (answer = "YES" /\ iteration_limit max_iter max_time (nat2q (s_num s')) \/
     answer = "NO" /\ ~ iteration_limit max_iter max_time (nat2q (s_num s'))) /\
    shows w "Number continuous variables" [FNat (number_of is_continuous (kinds (e_space E)))] /\
    shows w "Number discrete variables" [FNat (number_of is_discrete (kinds (e_space E)))] /\
    shows w "Tolerance:" [FQ eps] /\ shows w "Optimization time:" [FQ (s_cum s')] /\
    shows w "Evaluator type (batch size):" [FStr (u_evaluator u); FNat (u_batch u)].
Proof.
  intros M fuel E s max_iter max_time eps ctx s' o u O H D. unfold kinds in D. rewrite map_length in D.
  destruct (finished_report fuel E s max_iter max_time eps ctx s' o u O H D) as (b & yb & x & m & R & W & B).
  destruct (expected_shows u (e_space E) s' eps b m x) as (A1 & A2 & A3 & A4 & A5 & A6 & A7 & A8 & _).
  exists (expected u (e_space E) s' eps b m x), (if b then "YES" else "NO"), yb, x, m. repeat (split; [assumption|]). split; [|repeat (split; [assumption|]); assumption].
  destruct b; [left|right]; split; auto; [apply B; reflexivity|]. intros L. apply B in L. discriminate.
Qed.
Print Assumptions C63_report_of_a_finished_run.
(** Spaces for which the condition on the dimension holds, and those for which it fails. *)
Theorem C63_which_spaces : forall ds cs sp, design_space ds cs = Ok sp ->
  (bandit_free (kinds sp) -> sp_dim sp = length (kinds sp)) /\
  (forall isarr arms, kinds sp = [KBandit isarr arms] -> 2 <= sp_dim sp -> length (kinds sp) < sp_dim sp).
Proof.
  intros ds cs sp D. split.
  - intros B. unfold kinds. rewrite map_length. apply (space_dim ds cs sp D B).
  - intros isarr arms K L. rewrite K. exact L.
Qed.
Print Assumptions C63_which_spaces.
(** Then (arms of length 2 or more) IndexError, with the first lines in the file. *)
Theorem C63_wide_bandits_refuted : forall M u sp (s : st M) eps lims, length (kinds sp) < sp_dim sp ->
  exists w, save_report (object Bayesian u sp s (Some (eps, lims))) = (w, Some IndexError) /\ length w = 8.
Proof. intros M u sp s eps lims L. apply report_index. unfold kinds in L. now rewrite map_length in L. Qed.
Print Assumptions C63_wide_bandits_refuted.
(** A ModularBayesianOptimization object never gets a report: AttributeError after three lines; the files for the evaluations and the
    models are not written either, although the run is complete. *)
Theorem C63_modular_refuted : forall M fuel (E : env M) u names s max_iter max_time eps ctx evaluations models s',
  run_optimization fuel E s max_iter max_time eps ctx = (s', Some (Ok tt)) ->
  exists w, run_and_save fuel E Modular u names s max_iter max_time eps ctx true evaluations models =
      (s', mk_files (Some w) None None, Some (Raise AttributeError)) /\
    map fst w = ["GPyOpt Version"; "Date and time:"; "Optimization completed:"].
Proof.
  intros M fuel E u names s max_iter max_time eps ctx ev mo s' H. unfold run_and_save. rewrite H.
  destruct (report_modular u (e_space E) s' eps (stop_conditions max_iter max_time)) as (w & W & L). exists w. split; [|exact L].
  unfold write_files. rewrite W. reflexivity.
Qed.
Print Assumptions C63_modular_refuted.
(** Called before the first run it raises AttributeError and leaves two lines in the file. *)
Theorem C63_before_the_first_run : forall M c u sp (s : st M),
  exists w, save_report (object c u sp s None) = (w, Some AttributeError) /\ map fst w = ["GPyOpt Version"; "Date and time:"].
Proof. intros. apply report_before_run. Qed.
Print Assumptions C63_before_the_first_run.
(** Two lines are wrong: whatever cost and constraints a BayesianOptimization object was given, the report says
    "User defined cost" and that there are no constraints. *)
Theorem C63_cost_and_constraints_refuted : forall M (E : env M) a fork clock dfuel dr U (m : M) s0 inner ops s1 fuel max_iter max_time eps ctx s' o u,
  bayesian_optimization a fork clock dfuel dr U m = Some (Ok (s0, inner)) -> history_caught E s0 ops s1 ->
  e_obj E = Some o -> run_optimization fuel E s1 max_iter max_time eps ctx = (s', Some (Ok tt)) ->
  sp_dim (e_space E) = length (kinds (e_space E)) ->
  exists w, save_report (object Bayesian u (e_space E) s' (Some (eps, stop_conditions max_iter max_time))) = (w, None) /\
    shows w "Cost used:" [FStr "User defined cost"] /\ shows w "Constraints:" [FBool false].
Proof.
  intros M E a fork clock dfuel dr U m s0 inner ops s1 fuel max_iter max_time eps ctx s' o u C H O R D. unfold kinds in D. rewrite map_length in D.
  destruct (finished_report fuel E s1 max_iter max_time eps ctx s' o u O R D) as (b & yb & x & v & _ & W & _).
  destruct (expected_shows u (e_space E) s' eps b v x) as (_ & _ & _ & _ & _ & _ & _ & _ & A9 & A10).
  assert (CO : exists c, s_cost s' = CostObject c).
  { assert (C0 : exists c, s_cost s0 = CostObject c).
    { unfold bayesian_optimization in C. destruct (init_design_chooser _ _ _ _ _ _) as [[h t] [[p|e]|]]; cbn in C; try discriminate.
      injection C as <- <-. eexists. reflexivity. }
    destruct C0 as [c C0]. exists c. apply (history_cost_object E c (ops ++ [ORun fuel max_iter max_time eps ctx]) s0 s' C0).
    assert (G : forall ops s, history_caught E s ops s1 -> history_caught E s (ops ++ [ORun fuel max_iter max_time eps ctx]) s').
    { clear -R. induction ops as [|op ops IH]; intros s H; simpl in *.
      - subst s. exists s', (Ok tt). split; [exact R|reflexivity].
      - destruct H as (s2 & r & S1 & H). exists s2, r. split; [exact S1|]. now apply IH. }
    now apply G. }
  destruct CO as [c CO]. rewrite CO in A9. eexists. split; [exact W|]. split; assumption.
Qed.
Print Assumptions C63_cost_and_constraints_refuted.

Definition a_setup : setup := mk_setup "demo" 5 (Some 1) false true 1%Z "GP" "EI" "lbfgs" "sequential" 1 1.
Example C63_nonvacuous : exists s', run_optimization 10 (toy 1 (Some obj1)) (fresh None) (LFin (z 5)) LNone q0 None = (s', Some (Ok tt)) /\
  sp_dim (e_space (toy 1 (Some obj1))) = length (kinds (e_space (toy 1 (Some obj1)))) /\
  In ("Best found minimum location:", [FRow [z 3]]) (fst (save_report (object Bayesian a_setup line s' (Some (q0, stop_conditions (LFin (z 5)) LNone))))).
Proof. eexists. split; [vm_compute; reflexivity|]. split; [vm_compute; reflexivity|]. vm_compute. tauto. Qed.
Example C63_nonvacuous_constructed :
  let a := mk_args (Some square3) line (Some [[z 0]; [z (-1)]]) None "random" 5 false 1 1 ArgNone in
  let dr := fun _ : nat => mk_draws (fun _ _ => 0) (fun _ _ => q0) (fun _ _ => q0) in
  exists s0 s', bayesian_optimization a true nat2q 5 dr [] 0 = Some (Ok (s0, CostConstant)) /\
    run_optimization 10 (toy 1 (the_objective a true)) s0 (LFin (z 2)) LNone q0 None = (s', Some (Ok tt)).
Proof. cbv zeta. eexists. eexists. split; vm_compute; reflexivity. Qed.
Example C63_nonvacuous_bandit : exists sp, design_space ds_bandit None = Ok sp /\ length (kinds sp) < sp_dim sp.
Proof. eexists. split; [vm_compute; reflexivity|]. vm_compute. constructor. Qed.

(** ---------------------------------------------------------------- C64 *)
(** One row per evaluation, in order: its number, the value, the coordinates.  Reading the table gives back the evaluations. *)
Theorem C64_table : forall X Y, aligned X Y -> exists t, save_evaluations X (Some Y) = Ok t /\
  fst t = "Iteration" :: "Y" :: map (fun k => ("var_" ++ str_nat k)%string) (seq 1 (length (hd [] X))) /\
  length (snd t) = length X /\
  (forall i x y, nth_error X i = Some x -> nth_error Y i = Some y -> nth_error (snd t) i = Some (nat2q (S i) :: y :: x)) /\
  read_evaluations t = map Some (combine Y X).
Proof.
  intros X Y L. destruct (evaluations_table X Y L) as (t & T & A & B & C). exists t. split; [exact T|]. split; [exact (evaluations_header X Y t T)|]. auto.
Qed.
Print Assumptions C64_table.
(** After every history of calls that returned, whatever the calls, the table can be written and is that of all data. *)
Theorem C64_after_every_history : forall M (E : env M) o ops s s', e_obj E = Some o -> history E s ops s' -> ops <> [] ->
  (forall Y, s_Y s = Some Y -> aligned (s_X s) Y) ->
  exists t Y, s_Y s' = Some Y /\ aligned (s_X s') Y /\ save_evaluations (s_X s') (s_Y s') = Ok t /\ read_evaluations t = map Some (combine Y (s_X s')).
Proof.
  intros M E o ops s s' O H NE AL.
  assert (A : exists Y, s_Y s' = Some Y /\ aligned (s_X s') Y).
  { destruct (history_data E o O ops s s' H NE) as (new & ys & X' & Y' & L & _ & _). exists (values_so_far s ++ ys). split; [exact Y'|].
    unfold aligned. rewrite X', !app_length, L, app_length. unfold values_so_far, pending_rows. destruct (s_Y s) as [Y|] eqn:EY; [rewrite <- (AL Y eq_refl)|]; simpl; lia. }
  destruct A as (Y & EY & A). destruct (evaluations_table (s_X s') Y A) as (t & T & _ & _ & R). exists t, Y. rewrite EY. auto.
Qed.
Print Assumptions C64_after_every_history.
(** After an exception of the objective X is ahead of Y (C34_exception_leaves_X_ahead_of_Y): the table cannot be written. *)
Theorem C64_after_an_exception : forall X Y, length X <> length Y -> save_evaluations X (Some Y) = Raise ValueError.
Proof. exact evaluations_mismatch. Qed.
Print Assumptions C64_after_an_exception.
Example C64_nonvacuous : save_evaluations [[z 0; z 5]; [z 1; z 7]] (Some [z 9; z 4]) =
  Ok (["Iteration"; "Y"; "var_1"; "var_2"], [[z 1; z 9; z 0; z 5]; [z 2; z 4; z 1; z 7]]).
Proof. vm_compute. reflexivity. Qed.

(** ---------------------------------------------------------------- C78 *)
(** The models file has one numbered row per iteration of the last run: as many rows as the parameter history (C35). *)
Theorem C78_models_table : forall H names, exists t, save_models (Some H) names = Ok t /\ fst t = "Iteration" :: names /\ length (snd t) = length H /\
  forall i p, nth_error H i = Some p -> nth_error (snd t) i = Some (nat2q (S i) :: p).
Proof.
  intros H names. eexists. split; [reflexivity|]. split; [reflexivity|]. cbn [snd]. split; [apply numbered_length|]. intros i p I. exact (numbered_nth H i p I).
Qed.
Print Assumptions C78_models_table.
(** Without an iteration begun (time used up at once) there is nothing to save: ValueError at the end of a run that was otherwise fine,
    after the other files were written. *)
Theorem C78_no_time_refuted : forall M fuel (E : env M) c u names s max_iter max_time eps ctx s' o t,
  e_obj E = Some o -> time_limit max_time t -> (t <= 0)%Qc -> run_optimization fuel E s max_iter max_time eps ctx = (s', Some (Ok tt)) ->
  exists f, run_and_save fuel E c u names s max_iter max_time eps ctx false false true = (s', f, Some (Raise ValueError)).
Proof.
  intros M fuel E c u names s max_iter max_time eps ctx s' o t O T L H.
  destruct (run_updates fuel E s max_iter max_time eps ctx s' o O H) as (Y0 & bs & yss & n & UU & LB & LY & X' & Y' & Y0' & U' & SCH & N & PR).
  destruct (no_time_no_acquisition fuel E s max_iter max_time eps ctx s' o t O T L H) as (_ & N0 & UP & _).
  unfold run_and_save. rewrite H. unfold write_files. eexists.
  assert (P : s_params s' = None).
  { clear -H O T L. unfold run_optimization in H. rewrite O in H. destruct (initial_evaluation E o _) as [s1 [[[]|e]|]] eqn:IE; try discriminate.
    assert (P1 : s_params s1 = None).
    { unfold initial_evaluation in IE. cbn [s_Y set_ctx set_params] in IE. destruct (s_Y s); [injection IE as <-; reflexivity|].
      destruct (evaluate _ _ _ _ _) as [[h k] [[[ys cs]|e]|]]; try discriminate.
      destruct (is_time_cost _); [|injection IE as <-; reflexivity]. destruct (update_cost_model _ _ _ _ _) as [c [[]|e]]; [|discriminate]. injection IE as <-. reflexivity. }
    destruct fuel as [|fuel]; [discriminate|]. assert (ST : snd (stop_conditions max_iter max_time) = Some t) by (rewrite T; destruct max_iter; reflexivity).
    rewrite ST in H. cbn [loop] in H.
    replace (time_left (Some t) _) with false in H.
    2:{ cbn. symmetry. unfold qclt. apply negb_false_iff. apply Qle_bool_iff. exact L. }
    destruct (compute_results _) as [s2 r] eqn:CR. injection H as -> ->. unfold compute_results in CR.
    cbn in CR. destruct (s_Y s1) as [Y|]; [|discriminate]. destruct (argmin Y); [|discriminate]. destruct (get (s_X s1) n); [|discriminate]. destruct (py_min Y); [|discriminate].
    injection CR as <-. exact P1. }
  rewrite P. reflexivity.
Qed.
Print Assumptions C78_no_time_refuted.
(** The files are written in the order report, evaluations, models, and an exception in one prevents the later ones; without an
    exception every requested file is there and no other. *)
Theorem C78_order_of_files : forall o X Y P names report evaluations models f e,
  write_files o X Y P names report evaluations models = (f, e) ->
  (e = None -> (f_report f <> None <-> report = true) /\ (f_evaluations f <> None <-> evaluations = true) /\ (f_models f <> None <-> models = true)) /\
  (report = true -> snd (save_report o) <> None -> f_evaluations f = None /\ f_models f = None) /\
  (evaluations = true -> (forall t, save_evaluations X Y <> Ok t) -> f_evaluations f = None /\ f_models f = None) /\
  (forall t, f_evaluations f = Some t -> save_evaluations X Y = Ok t) /\ (forall t, f_models f = Some t -> save_models P names = Ok t).
Proof.
  intros o X Y P names report evaluations models f e. unfold write_files.
  destruct (save_report o) as [w er] eqn:SR, (save_evaluations X Y) as [te|ee] eqn:SE, (save_models P names) as [tm|em] eqn:SM, report, evaluations, models, er; cbn;
    intros [= <- <-]; cbn; repeat split; intros; try congruence; try discriminate; try (exfalso; eapply H0; reflexivity); auto.
Qed.
Print Assumptions C78_order_of_files.
Example C78_nonvacuous : exists f, run_and_save 10 (toy 1 (Some obj1)) Bayesian a_setup (fun _ => ["p"]) (fresh None) (LFin (z 1)) LNone q0 None true true true =
  (fst (run_optimization 10 (toy 1 (Some obj1)) (fresh None) (LFin (z 1)) LNone q0 None), f, Some (Ok tt)) /\
  f_models f = Some (["Iteration"; "p"], [[z 1; z 0]; [z 2; z 1]]).
Proof. eexists. split; vm_compute; reflexivity. Qed.
