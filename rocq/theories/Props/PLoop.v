(** C30-C38: the optimization loop.
    Specification: Spec/BOSpec.v.  Model: Model/Objective.v, Model/BO.v. *)
From Coq Require Import String List ZArith QArith Qcanon Bool Lia.
From Verif.Model Require Import Py Space Design Optim Objective BO.
From Verif.Spec Require Import SpaceSpec DesignSpec ContextSpec SuggestSpec BOSpec Examples BOExamples.
From Verif.Proof Require Import Num Dec BOP BOLoop BOMain BOMain2 BOExtra.
Import ListNotations.
Local Open Scope nat_scope.
Local Open Scope string_scope.
Local Open Scope list_scope.

(** ---------------------------------------------------------------- C30 *)
(** Any sequence of runs and suggestions that end without an exception, starting from any state with Y aligned or without
    Y: the old rows and values are still there, in front, the new rows have exactly one value each, and every value is the
    objective at its row. *)
Theorem C30_aligned_and_append_only : forall M (E : env M) o ops s s',
  e_obj E = Some o -> 1 <= o_procs o -> history E s ops s' -> ops <> [] -> (forall Y, s_Y s = Some Y -> aligned (s_X s) Y) ->
  exists new ys Y', s_X s' = s_X s ++ new /\ s_Y s' = Some Y' /\ Y' = values_so_far s ++ ys /\ aligned (s_X s') Y' /\
    (stateless (o_fun o) -> values_at (o_fun o) (pending_rows s ++ new) ys).
Proof.
  intros M E o ops s s' O P H NE AL. destruct (history_data E o O ops s s' H NE) as (new & ys & X' & Y' & L & _ & V).
  exists new, ys, (values_so_far s ++ ys). split; [exact X'|]. split; [exact Y'|]. split; [reflexivity|]. split; [|auto].
  unfold aligned in *. rewrite X', !app_length. rewrite L, app_length. unfold values_so_far, pending_rows. destruct (s_Y s) as [Y|].
  - rewrite (AL Y eq_refl). cbn. lia.
  - cbn. lia.
Qed.
Print Assumptions C30_aligned_and_append_only.

(** A stateful or noisy objective, sequentially evaluated: each value is the answer given when the row was evaluated. *)
Theorem C30_values_are_answers : forall M (E : env M) o ops s s',
  e_obj E = Some o -> o_procs o = 1 -> history E s ops s' -> ops <> [] ->
  exists new ys, s_X s' = s_X s ++ new /\ s_Y s' = Some (values_so_far s ++ ys) /\
    answers (o_fun o) (s_hist s) (pending_rows s ++ new) ys.
Proof.
  intros M E o ops s s' O P H NE. destruct (history_data E o O ops s s' H NE) as (new & ys & X' & Y' & _ & A & _).
  exists new, ys. split; [exact X'|]. split; [exact Y'|]. now apply A.
Qed.
Print Assumptions C30_values_are_answers.

(** With batch_size = 0 the objective has no process: every value is silently 0. *)
Theorem C30_no_processes_refuted : forall f fork clock h t x,
  evaluate (mk_obj f 0 fork) clock h t x = (h, t, Some (Ok (repeat q0 (length x), CMat (map (fun _ => [q1]) x)))).
Proof. intros f fork clock h t x. unfold evaluate, parallel_evaluation. cbn. rewrite andb_false_r. reflexivity. Qed.
Print Assumptions C30_no_processes_refuted.

Example C30_nonvacuous :
  let E := toy 1 (Some obj1) in
  exists s', history E (fresh None) [ORun 10 (LFin (z 2)) LNone q0 None; OSuggest None None None; ORun 10 (LFin (z 1)) LNone q0 None] s' /\
    s_X s' = [[z 0]; [z (-1)]; [z 1]; [z 2]; [z 4]] /\ s_Y s' = Some [z 9; z 16; z 4; z 1; z 1] /\ stateless (o_fun obj1).
Proof.
  eexists. split; [|split; [|split]].
  - eexists. split; [vm_compute; reflexivity|]. eexists. split; [vm_compute; reflexivity|]. eexists. split; [vm_compute; reflexivity|reflexivity].
  - vm_compute. reflexivity.
  - vm_compute. reflexivity.
  - intros h h' x. reflexivity.
Qed.

(** ---------------------------------------------------------------- C31 *)
(** The sequence of calls of the objective is the rows without value, then the new rows, in order, each once. *)
Theorem C31_evaluated_once_in_order : forall M (E : env M) o ops s s',
  e_obj E = Some o -> o_procs o = 1 -> history E s ops s' -> ops <> [] ->
  exists new, s_X s' = s_X s ++ new /\ s_hist s' = s_hist s ++ pending_rows s ++ new.
Proof.
  intros M E o ops s s' O P H NE. destruct (history_data E o O ops s s' H NE) as (new & ys & X' & _ & _ & A & _).
  exists new. split; [exact X'|]. now apply A.
Qed.
Print Assumptions C31_evaluated_once_in_order.

Example C31_nonvacuous :
  let E := toy 1 (Some obj1) in
  exists s', history E (fresh None) [ORun 10 (LFin (z 2)) LNone q0 None; ORun 10 (LFin (z 1)) LNone q0 None] s' /\
    s_hist s' = [[z 0]; [z (-1)]; [z 1]; [z 2]; [z 3]].
Proof.
  eexists. split.
  - eexists. split; [vm_compute; reflexivity|]. eexists. split; [vm_compute; reflexivity|reflexivity].
  - vm_compute. reflexivity.
Qed.

(** ---------------------------------------------------------------- C32 *)
(** Why a run that ends without an exception has stopped; [s_num] is the number of acquisitions of the run and [s_cum] the
    time it measured. *)
Theorem C32_stops_for_a_documented_reason : forall M fuel (E : env M) s max_iter max_time eps ctx s' o,
  e_obj E = Some o -> run_optimization fuel E s max_iter max_time eps ctx = (s', Some (Ok tt)) ->
  (forall q k, iteration_limit max_iter max_time q -> k < s_num s' -> (nat2q k < q)%Qc) /\
  ((exists q, iteration_limit max_iter max_time q /\ (q <= nat2q (s_num s'))%Qc) \/
   (exists t, time_limit max_time t /\ (t <= s_cum s')%Qc) \/
   (exists pre a b, s_X s' = pre ++ [b; a] /\ within_eps eps a b) \/
   (exists m Xm Ym U, s_updates s' = U ++ [(s_num s', Xm, Ym)] /\ snd (e_update E m Xm Ym) = Some LinAlgError)) /\
  (s_num s' = 0 /\ s_cum s' = q0 \/ exists j k, j < k /\ s_cum s' = (e_clock E k - e_clock E j)%Qc).
Proof. exact @run_stops. Qed.
Print Assumptions C32_stops_for_a_documented_reason.

(** With an iteration limit the loop always ends: [N] iterations suffice if N is at least the limit.  Exhausted fuel is the
    result None, so any larger amount of fuel is as good as an unbounded loop. *)
Theorem C32_terminates_with_iteration_limit : forall M fuel (E : env M) s max_iter max_time eps ctx o q N,
  e_obj E = Some o -> parts_return E o -> iteration_limit max_iter max_time q -> (q <= nat2q N)%Qc -> N < fuel ->
  snd (run_optimization fuel E s max_iter max_time eps ctx) <> None.
Proof. exact @run_terminates_iter. Qed.
Print Assumptions C32_terminates_with_iteration_limit.

Theorem C32_terminates_with_time_limit : forall M (E : env M) s max_iter max_time eps ctx o t,
  e_obj E = Some o -> parts_return E o -> time_limit max_time t ->
  (forall j, exists K, forall k, K <= k -> (t <= e_clock E k - e_clock E j)%Qc) ->
  exists F, forall fuel, F <= fuel -> snd (run_optimization fuel E s max_iter max_time eps ctx) <> None.
Proof. exact @run_terminates_time. Qed.
Print Assumptions C32_terminates_with_time_limit.

Theorem C32_no_time_no_acquisition : forall M fuel (E : env M) s max_iter max_time eps ctx s' o t,
  e_obj E = Some o -> time_limit max_time t -> (t <= 0)%Qc ->
  run_optimization fuel E s max_iter max_time eps ctx = (s', Some (Ok tt)) ->
  s_X s' = s_X s /\ s_num s' = 0 /\ s_updates s' = s_updates s /\ s_model s' = s_model s.
Proof. exact @no_time_no_acquisition. Qed.
Print Assumptions C32_no_time_no_acquisition.

Theorem C32_no_limits_no_acquisition : forall M fuel (E : env M) s eps ctx s' o,
  e_obj E = Some o -> run_optimization fuel E s LNone LNone eps ctx = (s', Some (Ok tt)) -> s_X s' = s_X s /\ s_num s' = 0.
Proof. exact @no_limits_no_acquisition. Qed.
Print Assumptions C32_no_limits_no_acquisition.

Example C32_nonvacuous :
  let E := toy 1 (Some obj1) in
  parts_return E obj1 /\ (forall j, exists K, forall k, K <= k -> (z 20 <= e_clock E k - e_clock E j)%Qc) /\
  (exists s', run_optimization 10 E (fresh None) (LFin (z 3)) LNone q0 None = (s', Some (Ok tt)) /\ s_num s' = 3) /\
  (exists s', run_optimization 10 E (fresh None) LInf (LFin (z 8)) q0 None = (s', Some (Ok tt)) /\ s_num s' = 3 /\ s_cum s' = z 9) /\
  (exists s', run_optimization 10 E (fresh None) (LFin (z 5)) LNone (z 1) None = (s', Some (Ok tt)) /\ s_num s' = 0) /\
  (exists s', run_optimization 10 E (fresh None) (LFin (z 5)) (LFin (z 0)) q0 None = (s', Some (Ok tt)) /\ s_num s' = 0) /\
  (exists s', run_optimization 10 E (fresh None) LNone LNone q0 None = (s', Some (Ok tt)) /\ s_num s' = 0).
Proof.
  cbv zeta. split; [|split; [|repeat split]].
  - split; [discriminate|left; reflexivity].
  - intros j. exists (j + 20). intros k K. cbn [e_clock toy]. apply (nat2q_diff j k 20). lia.
  - eexists. split; vm_compute; reflexivity.
  - eexists. split; [vm_compute; reflexivity|]. split; vm_compute; reflexivity.
  - eexists. split; vm_compute; reflexivity.
  - eexists. split; vm_compute; reflexivity.
  - eexists. split; vm_compute; reflexivity.
Qed.

(** ---------------------------------------------------------------- C33 *)
Theorem C33_reported_optimum : forall M fuel (E : env M) s max_iter max_time eps ctx s' o,
  e_obj E = Some o -> run_optimization fuel E s max_iter max_time eps ctx = (s', Some (Ok tt)) ->
  exists Y y_best x_opt fx_opt i, s_Y s' = Some Y /\ s_report s' = Some (y_best, x_opt, fx_opt) /\
    is_min fx_opt Y /\ first_min i Y /\ nth_error Y i = Some fx_opt /\ nth_error (s_X s') i = Some x_opt /\
    length y_best = length Y /\
    (forall j b, nth_error y_best j = Some b -> is_min b (firstn (S j) Y)) /\
    (forall j k b c, j <= k -> nth_error y_best j = Some b -> nth_error y_best k = Some c -> (c <= b)%Qc) /\
    nth_error y_best (length Y - 1) = Some fx_opt.
Proof. exact @run_reports. Qed.
Print Assumptions C33_reported_optimum.

Example C33_nonvacuous :
  exists s', run_optimization 10 (toy 1 (Some obj1)) (fresh None) (LFin (z 5)) LNone q0 None = (s', Some (Ok tt)) /\
    s_Y s' = Some [z 9; z 16; z 4; z 1; z 0; z 1; z 4] /\
    s_report s' = Some ([z 9; z 9; z 4; z 1; z 0; z 0; z 0], [z 3], z 0).
Proof. eexists. split; [vm_compute; reflexivity|]. split; vm_compute; reflexivity. Qed.

(** ---------------------------------------------------------------- C34 *)
(** However a run ends (also by an exception, or never): no row and no value is lost, every value belongs to its row; X may
    be ahead of Y by the batch [b] that was being evaluated. *)
Theorem C34_nothing_is_lost : forall M fuel (E : env M) s max_iter max_time eps ctx s' r o Y,
  e_obj E = Some o -> o_procs o = 1 -> s_Y s = Some Y ->
  run_optimization fuel E s max_iter max_time eps ctx = (s', r) ->
  exists new ys b calls, s_X s' = s_X s ++ new ++ b /\ s_Y s' = Some (Y ++ ys) /\ length ys = length new /\
    answers (o_fun o) (s_hist s) new ys /\ s_hist s' = s_hist s ++ new ++ calls /\
    (b = [] /\ calls = [] \/ b = s_sugg s' /\
       exists pre post vs, b = pre ++ post /\ answers (o_fun o) (s_hist s ++ new) pre vs /\
         (calls = b /\ post = [] \/
          exists x rest e, post = x :: rest /\ calls = pre ++ [x] /\ o_fun o (s_hist s ++ new ++ pre) x = Raise e /\ r = Some (Raise e))).
Proof. exact @run_any_outcome. Qed.
Print Assumptions C34_nothing_is_lost.

(** When the last call of the objective raised: the exception reaches the user and X is longer than Y by the batch. *)
Theorem C34_exception_leaves_X_ahead_of_Y : forall M fuel (E : env M) s max_iter max_time eps ctx s' e o Y h x e',
  e_obj E = Some o -> o_procs o = 1 -> s_Y s = Some Y -> aligned (s_X s) Y ->
  run_optimization fuel E s max_iter max_time eps ctx = (s', Some (Raise e)) ->
  s_hist s' = h ++ [x] -> length (s_hist s) <= length h -> o_fun o h x = Raise e' ->
  e' = e /\
  exists new ys b, s_X s' = s_X s ++ new ++ b /\ s_Y s' = Some (Y ++ ys) /\ length ys = length new /\
    answers (o_fun o) (s_hist s) new ys /\ b = s_sugg s' /\ In x b /\ length (s_X s') = length (Y ++ ys) + length b.
Proof. exact @objective_raises. Qed.
Print Assumptions C34_exception_leaves_X_ahead_of_Y.

(** From then on the object is useless: every further call that consults the surrogate raises and changes nothing. *)
Theorem C34_mismatch_is_permanent : forall M (E : env M), rejects_mismatch E -> forall ops s Y s',
  s_Y s = Some Y -> s_X s <> [] -> length (s_X s) <> length Y -> Forall consults_model ops -> history_caught E s ops s' ->
  s_X s' = s_X s /\ s_Y s' = s_Y s /\ s_hist s' = s_hist s /\ (ops <> [] -> ~ history E s ops s').
Proof. exact @mismatch_forever. Qed.
Print Assumptions C34_mismatch_is_permanent.

Example C34_nonvacuous :
  let E := toy 1 (Some obj1_fails) in let s := fresh (Some [z 9; z 16]) in
  rejects_mismatch E /\
  exists s1 s2, run_optimization 10 E s (LFin (z 5)) LNone q0 None = (s1, Some (Raise (UserError 7))) /\
    s_hist s1 = [[z 1]] ++ [[z 2]] /\ o_fun obj1_fails [[z 1]] [z 2] = Raise (UserError 7) /\
    s_X s1 = [[z 0]; [z (-1)]; [z 1]; [z 2]] /\ s_Y s1 = Some [z 9; z 16; z 4] /\
    Forall consults_model [OSuggest None None None; ORun 10 (LFin (z 1)) LNone q0 None] /\
    history_caught E s1 [OSuggest None None None; ORun 10 (LFin (z 1)) LNone q0 None] s2.
Proof.
  cbv zeta. split.
  - split; [|discriminate]. intros m X Y N. cbn. destruct (Nat.eqb_spec (length X) (length Y)); [contradiction|reflexivity].
  - eexists. eexists. split; [vm_compute; reflexivity|]. split; [vm_compute; reflexivity|]. split; [vm_compute; reflexivity|].
    split; [vm_compute; reflexivity|]. split; [vm_compute; reflexivity|].
    split; [repeat constructor; cbn; try lia; discriminate|].
    eexists. eexists. split; [vm_compute; reflexivity|]. eexists. eexists. split; [vm_compute; reflexivity|reflexivity].
Qed.

(** ---------------------------------------------------------------- C35 *)
(** The updates of a run: [U] is the list of (iteration, inputs, outputs) handed to the surrogate; [n] iterations were
    begun.  Exactly the iterations that are multiples of the interval update, each on all data evaluated before it; the
    parameter history has one row per iteration (none for the iteration whose update failed). *)
Theorem C35_update_schedule : forall M fuel (E : env M) s max_iter max_time eps ctx s' o,
  e_obj E = Some o -> run_optimization fuel E s max_iter max_time eps ctx = (s', Some (Ok tt)) ->
  exists Y0 bs yss n U, length bs = s_num s' /\ length yss = s_num s' /\
    s_X s' = s_X s ++ concat bs /\ s_Y s' = Some (Y0 ++ concat yss) /\ (forall Y, s_Y s = Some Y -> Y0 = Y) /\
    s_updates s' = s_updates s ++ U /\ update_schedule E (s_X s) Y0 bs yss n U /\
    (n = s_num s' \/ n = S (s_num s')) /\
    (length (hist_rows (s_params s')) = n \/
     (n = S (s_num s') /\ length (hist_rows (s_params s')) = s_num s' /\
      exists m Xm Ym, In (s_num s', Xm, Ym) U /\ snd (e_update E m Xm Ym) = Some LinAlgError)).
Proof. exact @run_updates. Qed.
Print Assumptions C35_update_schedule.

Theorem C35_interval_zero : forall M fuel (E : env M) s max_iter max_time eps ctx o Y,
  e_obj E = Some o -> s_Y s = Some Y -> e_interval E = 0%Z -> 0 < fuel -> (forall t, max_time = LFin t -> (0 < t)%Qc) ->
  exists s', run_optimization fuel E s max_iter max_time eps ctx = (s', Some (Raise ZeroDivisionError)).
Proof. exact @interval_zero. Qed.
Print Assumptions C35_interval_zero.

Example C35_nonvacuous :
  exists s', run_optimization 10 (toy 2 (Some obj1)) (fresh None) (LFin (z 4)) LNone q0 None = (s', Some (Ok tt)) /\
    map (fun u => fst (fst u)) (s_updates s') = [0; 2; 4] /\ map (fun u => length (snd u)) (s_updates s') = [2; 4; 6] /\
    length (hist_rows (s_params s')) = 5.
Proof. eexists. split; [vm_compute; reflexivity|]. repeat split; vm_compute; reflexivity. Qed.

(** ---------------------------------------------------------------- C36 *)
Theorem C36_same_trajectory_as_minus_f : forall M (E : env M) a f g fork fuel dr U (m : M),
  a_f a = Some f -> a_maximize a = true -> is_negation f g ->
  bayesian_optimization a fork (e_clock E) fuel dr U m = bayesian_optimization (minimising a g) fork (e_clock E) fuel dr U m /\
  forall ops s s', history_caught (with_objective E (the_objective a fork)) s ops s' <->
                   history_caught (with_objective E (the_objective (minimising a g) fork)) s ops s'.
Proof. exact @maximize_trajectory. Qed.
Print Assumptions C36_same_trajectory_as_minus_f.

(** After any history that ends with a run: Y = -f(X), and minus fx_opt is the largest value of f, attained at x_opt. *)
Theorem C36_reports_the_maximum : forall M (E : env M) a f fork fuel dr U (m : M) s inner ops s1 fl mi mt eps ctx s',
  a_f a = Some f -> a_maximize a = true -> stateless f -> 1 <= a_batch_size a -> (a_X a = None \/ a_Y a = None) ->
  bayesian_optimization a fork (e_clock E) fuel dr U m = Some (Ok (s, inner)) -> e_obj E = the_objective a fork ->
  history E s ops s1 -> run_optimization fl E s1 mi mt eps ctx = (s', Some (Ok tt)) ->
  exists fs y_best x_opt fx_opt, values_at f (s_X s') fs /\ s_Y s' = Some (map Qcopp fs) /\
    s_report s' = Some (y_best, x_opt, fx_opt) /\ is_max (- fx_opt) fs /\ In x_opt (s_X s') /\ (forall h, f h x_opt = Ok (- fx_opt)%Qc).
Proof. exact @maximize_reports. Qed.
Print Assumptions C36_reports_the_maximum.

Definition args_max : bo_args := mk_args (Some square3) line (Some [[z 0]; [z (-1)]]) None "random" 5 true 1 1 ArgNone.
Example C36_nonvacuous :
  let E := toy 1 (the_objective args_max true) in
  exists s inner s', bayesian_optimization args_max true (e_clock E) 5 (fun _ => mk_draws (fun _ _ => 0) (fun _ _ => q0) (fun _ _ => q0)) [] 0 = Some (Ok (s, inner)) /\
    run_optimization 10 E s (LFin (z 2)) LNone q0 None = (s', Some (Ok tt)) /\
    s_Y s' = Some [z (-9); z (-16); z (-4); z (-1)] /\ s_report s' = Some ([z (-9); z (-16); z (-16); z (-16)], [z (-1)], z (-16)).
Proof. do 3 eexists. split; [vm_compute; reflexivity|]. split; [vm_compute; reflexivity|]. split; vm_compute; reflexivity. Qed.

(** ---------------------------------------------------------------- C37 *)
Theorem C37_suggestions_do_not_touch_the_data : forall M (E : env M) s ctx pending ignored s' r,
  suggest_next_locations E s ctx pending ignored = (s', r) ->
  s_X s' = s_X s /\ s_Y s' = s_Y s /\ s_hist s' = s_hist s /\ s_tick s' = s_tick s /\ s_cost s' = s_cost s /\
  s_report s' = s_report s /\ s_num s' = 0 /\ s_ctx s' = ctx /\
  exists U, s_updates s' = s_updates s ++ U /\
    (forall b, r = Some (Ok b) -> exists Y Xm Ym, s_Y s = Some Y /\ U = [(0, Xm, Ym)] /\ training_data E (s_X s) Y Xm Ym /\
        exists m v, e_params E m = Some v /\ s_params s' = Some [v] /\ m = fst (e_update E (s_model s) Xm Ym)).
Proof. exact @suggest_frame. Qed.
Print Assumptions C37_suggestions_do_not_touch_the_data.

Example C37_nonvacuous :
  exists s1 s2 b, run_optimization 10 (toy 3 (Some obj1)) (fresh None) (LFin (z 2)) LNone q0 None = (s1, Some (Ok tt)) /\
    suggest_next_locations (toy 3 (Some obj1)) s1 None None None = (s2, Some (Ok b)) /\ b = [[z 3]] /\
    s_num s1 = 2 /\ length (s_updates s1) = 1 /\ length (s_updates s2) = 2.
Proof. do 3 eexists. split; [vm_compute; reflexivity|]. split; [vm_compute; reflexivity|]. repeat split; vm_compute; reflexivity. Qed.

(** ---------------------------------------------------------------- C38 *)
Theorem C38_without_objective : forall M a fork clock fuel dr U (m : M),
  a_f a = None ->
  (forall X Y, a_X a = Some X -> a_Y a = Some Y -> exists s inner,
     bayesian_optimization a fork clock fuel dr U m = Some (Ok (s, inner)) /\ s_X s = X /\ s_Y s = Some Y /\
     forall (E : env M) fl mi mt eps ctx, e_obj E = the_objective a fork ->
       run_optimization fl E s mi mt eps ctx = (s, Some (Raise InvalidConfigError))) /\
  (a_X a = None \/ a_Y a = None -> bayesian_optimization a fork clock fuel dr U m = Some (Raise InvalidConfigError)).
Proof. exact @without_objective. Qed.
Print Assumptions C38_without_objective.

Theorem C38_with_objective : forall M a fork clock fuel dr U (m : M) s inner f,
  a_f a = Some f -> bayesian_optimization a fork clock fuel dr U m = Some (Ok (s, inner)) ->
  exists Y, s_Y s = Some Y /\
    (forall X0 Y0, a_X a = Some X0 -> a_Y a = Some Y0 -> s_X s = X0 /\ Y = Y0 /\ s_hist s = []) /\
    (forall X0, a_X a = Some X0 -> s_X s = X0) /\
    (a_X a = None -> initial_design fuel (a_design a) (a_space a) dr U (a_numdata a) = Some (Ok (s_X s))) /\
    (a_X a = None \/ a_Y a = None ->
       length Y = length (s_X s) /\
       (a_batch_size a = 1 -> s_hist s = s_X s /\ answers (sign (a_maximize a) f) [] (s_X s) Y) /\
       (stateless f -> 1 <= a_batch_size a -> values_at (sign (a_maximize a) f) (s_X s) Y)).
Proof. exact @with_objective_data. Qed.
Print Assumptions C38_with_objective.

(** A Y given without X is ignored: the design is evaluated all the same. *)
Theorem C38_Y_without_X_is_ignored : forall M a fork clock fuel dr U (m : M) f,
  a_f a = Some f -> a_X a = None ->
  bayesian_optimization a fork clock fuel dr U m =
  bayesian_optimization (mk_args (a_f a) (a_space a) None None (a_design a) (a_numdata a) (a_maximize a) (a_batch_size a) (a_num_cores a) (a_cost a))
    fork clock fuel dr U m.
Proof.
  intros M a fork clock fuel dr U m f AF AX. unfold bayesian_optimization, the_objective, init_design_chooser. cbn. rewrite AF, AX. reflexivity.
Qed.
Print Assumptions C38_Y_without_X_is_ignored.

Example C38_nonvacuous :
  let a f X Y := mk_args f line X Y "random" 3 false 1 1 ArgNone in
  let dr := fun _ : nat => mk_draws (fun _ _ => 0) (fun _ _ => Q2Qc (1 # 2)) (fun _ _ => q0) in
  bayesian_optimization (a None (Some [[z 1]]) None) true nat2q 5 dr [] 0 = Some (Raise InvalidConfigError) /\
  (exists s inner, bayesian_optimization (a None (Some [[z 1]]) (Some [z 4])) true nat2q 5 dr [] 0 = Some (Ok (s, inner)) /\ s_X s = [[z 1]]) /\
  (exists s inner, bayesian_optimization (a (Some square3) None None) true nat2q 5 dr [] 0 = Some (Ok (s, inner)) /\ s_Y s = Some [z 9; z 9; z 9]) /\
  (exists s inner, bayesian_optimization (a (Some square3) (Some [[z 1]]) (Some [z 77])) true nat2q 5 dr [] 0 = Some (Ok (s, inner)) /\ s_Y s = Some [z 77]).
Proof.
  cbv zeta. split; [reflexivity|]. split; [do 2 eexists; split; vm_compute; reflexivity|]. split; do 2 eexists; (split; vm_compute; reflexivity).
Qed.
