(** C140: an objective that asks the optimizer for suggestions while it is evaluated.  Specification: Spec/ReentrantSpec.v,
    Spec/BOSpec.v.  Model: Model/Reentrant.v. *)
From Coq Require Import String List ZArith QArith Qcanon Bool Lia.
From Verif.Model Require Import Py Space Design Optim Objective BO Reentrant.
From Verif.Spec Require Import Examples BOSpec BOExamples ReentrantSpec.
From Verif.Proof Require Import Num Dec BOP BOLoop BOMain2 ReentrantP ReentrantQ ReentrantR.
Import ListNotations.
Local Open Scope nat_scope.
Local Open Scope string_scope.
Local Open Scope list_scope.

(** An objective that does not use the optimizer: the runs are those of C30-C38. *)
Theorem C140_silent : forall M fuel (E : env M) ask s max_iter max_time eps ctx, silent ask ->
  run_in fuel E ask s max_iter max_time eps ctx = run_optimization fuel E s max_iter max_time eps ctx.
Proof. intros. now apply silent_run. Qed.
Print Assumptions C140_silent.
(** Worker processes have their own copy of the optimizer: whatever the objective asks there, the run is the same. *)
Theorem C140_workers : forall M fuel (E : env M) o ask s max_iter max_time eps ctx, e_obj E = Some o -> o_procs o <> 1 -> o_fork o = true ->
  run_in fuel E ask s max_iter max_time eps ctx = run_optimization fuel E s max_iter max_time eps ctx.
Proof. intros. eapply workers_run; eauto. Qed.
Print Assumptions C140_workers.
(** Whatever it asks, the data of a run that ends are sound: the old rows and values first, one value for each new row, and
    each value what the objective returned for its row. *)
Theorem C140_data : forall M fuel (E : env M) o ask s max_iter max_time eps ctx s', e_obj E = Some o ->
  run_in fuel E ask s max_iter max_time eps ctx = (s', Some (Ok tt)) ->
  exists new ys, s_X s' = s_X s ++ new /\ s_Y s' = Some (values_so_far s ++ ys) /\ length ys = length (pending_rows s ++ new) /\
    (o_procs o = 1 -> answers (o_fun o) (s_hist s) (pending_rows s ++ new) ys /\ s_hist s' = s_hist s ++ pending_rows s ++ new) /\
    (stateless (o_fun o) -> 1 <= o_procs o -> values_at (o_fun o) (pending_rows s ++ new) ys).
Proof. intros. eapply run_in_data; eauto. Qed.
Print Assumptions C140_data.
(** While a batch is evaluated its rows have no values yet: a surrogate that insists on one value per row refuses the call. *)
Theorem C140_refused : forall M (E : env M) s Y b ctx pending ignored, rejects_mismatch E -> s_Y s = Some Y -> aligned (s_X s) Y -> b <> [] ->
  exists s' e, suggest_next_locations E (set_X s (s_X s ++ b)) ctx pending ignored = (s', Some (Raise e)).
Proof. intros. eapply refused; eauto. Qed.
Print Assumptions C140_refused.
(** If every evaluation asks, a limit of more than one iteration never ends the run: only the time, eps or a LinAlgError does. *)
Theorem C140_limit_refuted : forall M fuel (E : env M) o ask s max_iter max_time eps ctx s' q, e_obj E = Some o -> o_procs o = 1 -> always_asks ask ->
  iteration_limit max_iter max_time q -> (1 < q)%Qc -> run_in fuel E ask s max_iter max_time eps ctx = (s', Some (Ok tt)) ->
  (exists t, time_limit max_time t /\ (t <= s_cum s')%Qc) \/ (exists pre a b, s_X s' = pre ++ [b; a] /\ within_eps eps a b) \/
  (exists m Xm Ym U, s_updates s' = U ++ [(s_num s', Xm, Ym)] /\ snd (e_update E m Xm Ym) = Some LinAlgError).
Proof. intros. eapply run_in_limit; eauto. Qed.
Print Assumptions C140_limit_refuted.
(** And so a run with max_iter = 2 may evaluate for ever: after any number of turns it has evaluated that many points more,
    although every one of the calls was refused. *)
Theorem C140_endless_refuted : let E := toy 1 (Some obj1) in rejects_mismatch E /\ parts_return E obj1 /\ always_asks curious /\
  (forall fuel, exists s', run_in fuel E curious (fresh None) (LFin (z 2)) LNone (z (-1)) None = (s', None) /\ length (s_X s') = fuel + 2) /\
  (exists s', run_optimization 3 E (fresh None) (LFin (z 2)) LNone (z (-1)) None = (s', Some (Ok tt)) /\ length (s_X s') = 4).
Proof.
  cbv zeta. split; [|split; [|split; [|split]]].
  - split; [|discriminate]. intros m X Y N. cbn. apply Nat.eqb_neq in N. unfold mat, vec in *. now rewrite N.
  - split; [discriminate | left; reflexivity].
  - discriminate.
  - exact endless.
  - eexists. split; [vm_compute; reflexivity | reflexivity].
Qed.
Print Assumptions C140_endless_refuted.
(** A limit of at most one iteration holds: the run returns after one batch at most. *)
Theorem C140_one : forall M fuel (E : env M) o ask s max_iter max_time eps ctx q, e_obj E = Some o -> parts_return E o -> o_procs o = 1 ->
  iteration_limit max_iter max_time q -> (q <= 1)%Qc -> 2 <= fuel ->
  snd (run_in fuel E ask s max_iter max_time eps ctx) <> None /\
  forall s', run_in fuel E ask s max_iter max_time eps ctx = (s', Some (Ok tt)) -> s_X s' = s_X s \/ s_X s' = s_X s ++ s_sugg s'.
Proof. intros. eapply run_in_one; eauto. Qed.
Print Assumptions C140_one.
(** The context of the run is lost: once a row was evaluated it is the one of the calls. *)
Theorem C140_context_refuted : (forall M fuel (E : env M) o ask s max_iter max_time eps ctx s' c, e_obj E = Some o -> o_procs o = 1 -> always_asks ask -> asks_with c ask ->
    run_in fuel E ask s max_iter max_time eps ctx = (s', Some (Ok tt)) -> s_hist s' <> s_hist s -> s_ctx s' = c) /\
  (exists s s', run_in 5 (heeding (Some obj1)) curious (fresh (Some [z 9; z 16])) (LFin (z 1)) LNone (z (-1)) (Some [("x", z 5)]) = (s, Some (Ok tt)) /\ s_X s = [[z 0]; [z (-1)]; [z 5]] /\
     run_in 5 (heeding (Some obj1)) curious (fresh None) (LFin (z 1)) LNone (z (-1)) (Some [("x", z 5)]) = (s', Some (Ok tt)) /\ s_X s' = [[z 0]; [z (-1)]; [z 1]]) /\
  (exists s, run_optimization 5 (heeding (Some obj1)) (fresh None) (LFin (z 1)) LNone (z (-1)) (Some [("x", z 5)]) = (s, Some (Ok tt)) /\ s_X s = [[z 0]; [z (-1)]; [z 5]]).
Proof.
  split; [|split].
  - intros. eapply run_in_context; eauto.
  - eexists. eexists. split; [vm_compute; reflexivity|]. split; [reflexivity|]. split; [vm_compute; reflexivity | reflexivity].
  - eexists. split; [vm_compute; reflexivity | reflexivity].
Qed.
Print Assumptions C140_context_refuted.
(** A call that does not return, as when no configuration with its context meets the constraints (C11), holds up the evaluation for ever, although the
    result is not needed. *)
Theorem C140_waits : forall M (E : env M) o ask s x r c p i, o_procs o = 1 -> s_sugg s = x :: r -> ask (s_hist s) x = Some (c, p, i) ->
  snd (suggest_next_locations E s c p i) = None -> snd (evaluate_objective_in E o ask s) = None.
Proof. intros. eapply evaluate_waits; eauto. Qed.
Print Assumptions C140_waits.
(** A run that asks with every evaluation and ends, for each of the reasons left: one iteration, and the time. *)
Example C140_nonvacuous : let E := toy 1 (Some obj1) in always_asks curious /\ asks_with None curious /\ ~ silent curious /\ aligned (s_X (fresh (Some [z 9; z 16]))) [z 9; z 16] /\
  (exists s, run_in 5 E curious (fresh None) (LFin (z 1)) LNone (z (-1)) None = (s, Some (Ok tt)) /\ s_Y s = Some [z 9; z 16; z 4]) /\
  (exists s, run_in 9 E curious (fresh None) (LFin (z 2)) (LFin (z 8)) (z (-1)) None = (s, Some (Ok tt)) /\ length (s_X s) = 5 /\ s_num s = 1 /\ s_hist s <> []).
Proof.
  cbv zeta. split; [discriminate|]. split; [intros h x c p i [= <- _ _]; reflexivity|]. split; [intros H; discriminate (H [] [])|]. split; [reflexivity|]. split.
  - eexists. split; [vm_compute; reflexivity | reflexivity].
  - eexists. split; [vm_compute; reflexivity|]. split; [reflexivity|]. split; [reflexivity | discriminate].
Qed.
(** A run that asks for a context for which there is no answer never ends; without the question it does. *)
Example C140_nonvacuous_waits : let E := choosy (Some obj1) in let ask : asking := fun _ _ => Some (Some [("x", z 5)], None, None) in let s := set_sugg (fresh (Some [z 9; z 16])) [[z 2]] in
  snd (suggest_next_locations E s (Some [("x", z 5)]) None None) = None /\ snd (evaluate_objective_in E obj1 ask s) = None /\ snd (evaluate_objective E obj1 s) = Some (Ok tt) /\
  snd (run_in 5 E ask s (LFin (z 1)) LNone (z (-1)) None) = None /\ snd (run_optimization 5 E s (LFin (z 1)) LNone (z (-1)) None) = Some (Ok tt).
Proof. repeat split; vm_compute; reflexivity. Qed.
