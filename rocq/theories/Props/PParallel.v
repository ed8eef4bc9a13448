(** C39-C43: parallel evaluation, number of processes, cost models.
    Specification: Spec/BOSpec.v.  Model: Model/Objective.v, Model/Parallel.v, Model/BO.v. *)
From Coq Require Import String List ZArith QArith Qcanon Bool Lia.
From Verif.Model Require Import Py Space Design Optim Objective Parallel BO.
From Verif.Spec Require Import BOSpec Examples BOExamples.
From Verif.Proof Require Import Num Dec BOP BOLoop BOMain BOMain2 BOExtra ParP ParMain.
Import ListNotations.
Local Open Scope nat_scope.
Local Open Scope string_scope.
Local Open Scope list_scope.

(** ---------------------------------------------------------------- C39 *)
(** Whatever the number of processes, a result is the list of values in the order of the rows, the same as the result of the
    sequential evaluation. *)
Theorem C39_same_values_as_sequential : forall f n fork clock h t x h1 t1 ys cs h2 t2 ys2 cs2,
  stateless f -> 1 <= n ->
  evaluate (mk_obj f n fork) clock h t x = (h1, t1, Some (Ok (ys, cs))) ->
  evaluate (mk_obj f 1 fork) clock h t x = (h2, t2, Some (Ok (ys2, cs2))) ->
  ys = ys2 /\ values_at f x ys.
Proof. exact parallel_same. Qed.
Print Assumptions C39_same_values_as_sequential.

(** Every schedule of the parent and the [n] children is finite, with an explicit bound... *)
Theorem C39_schedules_are_finite : forall f n h x fits k s, psteps f n h x fits k par_init s -> k <= schedule_bound n x.
Proof. exact schedules_finite. Qed.
Print Assumptions C39_schedules_are_finite.

(** ...and if no row raises and the messages fit into the pipes, every schedule that has run to its end has returned the
    values in the order of the rows. *)
Theorem C39_every_schedule_returns_the_values : forall f n h x fits, stateless f -> 1 <= n ->
  (forall r, In r x -> exists y, f h r = Ok y) -> (forall m, fits m = true) ->
  forall k s, psteps f n h x fits k par_init s -> (forall s', ~ pstep f n h x fits s s') ->
  exists Y, ps_parent s = PDone Y /\ values_at f x Y.
Proof. exact every_schedule. Qed.
Print Assumptions C39_every_schedule_returns_the_values.

(** For a stateful objective too: the result of every schedule is the one the sequential model of the parent computes. *)
Theorem C39_schedules_agree_with_the_function : forall o clock h t x fits Y cs, o_fork o = true -> (forall m, fits m = true) ->
  parallel_evaluation o clock h t x = Some (Ok (Y, cs)) ->
  forall k s, psteps (o_fun o) (o_procs o) h x fits k par_init s -> (forall s', ~ pstep (o_fun o) (o_procs o) h x fits s s') ->
  ps_parent s = PDone Y.
Proof. exact schedule_function. Qed.
Print Assumptions C39_schedules_agree_with_the_function.

(** A fall-back to the sequential evaluation happens when the processes cannot be started. *)
Theorem C39_falls_back_when_start_fails : forall f n clock h t x, 1 <= n ->
  evaluate (mk_obj f n false) clock h t x = evaluate (mk_obj f 1 false) clock h t x.
Proof. exact fall_back. Qed.
Print Assumptions C39_falls_back_when_start_fails.

(** But not when the objective raises in a child, nor when a message is too large for its pipe: then no schedule ever lets
    the parent finish; it waits for ever. *)
Theorem C39_fall_back_refuted : forall f n h x fits, stateless f -> 1 <= n ->
  (exists r e, In r x /\ f h r = Raise e) \/ (forall m, fits m = false) ->
  forall k s, psteps f n h x fits k par_init s -> forall Y, ps_parent s <> PDone Y.
Proof. exact hangs. Qed.
Print Assumptions C39_fall_back_refuted.

Example C39_nonvacuous :
  (exists h t, evaluate (mk_obj square3 2 true) nat2q [] 0 [[z 1]; [z 2]; [z 5]] = (h, t, Some (Ok ([z 4; z 1; z 4], CMat [[q1]; [q1]; [q1]])))) /\
  (exists h t cs, evaluate (mk_obj square3 1 true) nat2q [] 0 [[z 1]; [z 2]; [z 5]] = (h, t, Some (Ok ([z 4; z 1; z 4], cs)))) /\
  evaluate (mk_obj fails_at_2 2 true) nat2q [] 0 [[z 1]; [z 2]; [z 5]] = ([], 0, None) /\
  (exists k s Y, psteps square3 1 [] [[z 1]] (fun _ => true) k par_init s /\ ps_parent s = PDone Y /\ Y = [z 4]).
Proof.
  split; [do 2 eexists; vm_compute; reflexivity|]. split; [do 3 eexists; vm_compute; reflexivity|]. split; [vm_compute; reflexivity|].
  eexists. eexists. eexists. split.
  - unfold par_init. eapply ps_trans; [apply st_start; lia|].
    eapply ps_trans; [eapply st_row with (i := 0); [lia|vm_compute; reflexivity|vm_compute; reflexivity]|].
    eapply ps_trans; [eapply st_end with (i := 0); [lia|vm_compute; reflexivity]|].
    eapply ps_trans; [eapply st_send with (i := 0); [lia|vm_compute; reflexivity|reflexivity]|].
    eapply ps_trans; [apply st_started|]. eapply ps_trans; [apply st_join; [lia|reflexivity]|].
    eapply ps_trans; [apply st_joined|]. eapply ps_trans; [eapply st_recv; [lia|reflexivity]|].
    eapply ps_trans; [apply st_received|]. apply ps_refl.
  - split; [reflexivity|vm_compute; reflexivity].
Qed.

(** ---------------------------------------------------------------- C40 *)
(** num_cores has no effect on the object that is built, nor on the objective: its number of processes is batch_size. *)
Theorem C40_num_cores_is_ignored : forall M a n fork clock fuel dr U (m : M),
  bayesian_optimization (with_cores a n) fork clock fuel dr U m = bayesian_optimization a fork clock fuel dr U m /\
  the_objective (with_cores a n) fork = the_objective a fork /\
  forall o, the_objective a fork = Some o -> o_procs o = a_batch_size a.
Proof.
  intros M a n fork clock fuel dr U m. split; [reflexivity|]. split; [reflexivity|]. unfold the_objective. intros o H.
  destruct (a_f a); [|discriminate]. now injection H as <-.
Qed.
Print Assumptions C40_num_cores_is_ignored.

(** Observable: with batch_size 1 every initial evaluation happens in the user's process however many cores are asked for;
    with a larger batch_size none does, although one core was asked for. *)
Theorem C40_processes_are_batch_size : forall M a fork clock fuel dr U (m : M) s inner f X,
  a_f a = Some f -> a_X a = Some X -> a_Y a = None ->
  bayesian_optimization a fork clock fuel dr U m = Some (Ok (s, inner)) ->
  (a_batch_size a = 1 -> s_hist s = X) /\ (2 <= a_batch_size a -> fork = true -> s_hist s = []).
Proof. exact @batch_size_processes. Qed.
Print Assumptions C40_processes_are_batch_size.

Example C40_nonvacuous :
  let a b c := mk_args (Some square3) line (Some [[z 0]; [z (-1)]]) None "random" 5 false b c ArgNone in
  let dr := fun _ : nat => mk_draws (fun _ _ => 0) (fun _ _ => q0) (fun _ _ => q0) in
  (exists s inner, bayesian_optimization (a 1 4) true nat2q 5 dr [] 0 = Some (Ok (s, inner)) /\ s_hist s = [[z 0]; [z (-1)]]) /\
  (exists s inner, bayesian_optimization (a 2 1) true nat2q 5 dr [] 0 = Some (Ok (s, inner)) /\ s_hist s = [] /\ s_Y s = Some [z 9; z 16]).
Proof. cbv zeta. split; do 2 eexists; (split; [vm_compute; reflexivity|]); try split; vm_compute; reflexivity. Qed.

(** ---------------------------------------------------------------- C41 *)
Theorem C41_cost_model_accumulates : forall lg fit ups c', ups <> [] ->
  Forall (fun u => exists l, snd u = CList l /\ length l = length (fst u)) ups ->
  cost_history lg fit (CostTime 0 None) ups c' ->
  c' = CostTime (length ups) (Some (concat (map fst ups),
         map (fun q => [lg q]) (concat (map (fun u => match snd u with CList l => l | CMat _ => [] end) ups)))).
Proof. exact cost_accumulates. Qed.
Print Assumptions C41_cost_model_accumulates.
(** The cost an acquisition sees then: the exponential of what the surrogate trained on these data predicts, with its gradient. *)
Theorem C41_cost_of_a_point : forall lg fit ups c', ups <> [] ->
  Forall (fun u => exists l, snd u = CList l /\ length l = length (fst u)) ups ->
  cost_history lg fit (CostTime 0 None) ups c' -> forall predict ex x m g,
  predict (concat (map fst ups), map (fun q => [lg q]) (concat (map (fun u => match snd u with CList l => l | CMat _ => [] end) ups))) x = (m, g) ->
  cost_withGradients predict ex c' x = Ok (ex m, map (fun d => (ex m * d)%Qc) g).
Proof. intros lg fit ups c' N F H predict ex x m g P. rewrite (cost_accumulates lg fit ups c' N F H). cbn [cost_withGradients]. rewrite P. reflexivity. Qed.
Print Assumptions C41_cost_of_a_point.
(** Without a cost argument the cost is 1 everywhere, with a user's function it is that function, after every history. *)
Theorem C41_other_costs : forall M (E : env M) a fork clock fuel dr U (m : M) s inner,
  bayesian_optimization a fork clock fuel dr U m = Some (Ok (s, inner)) -> forall ops s', history_caught E s ops s' ->
  s_cost s' = CostObject inner /\ forall predict ex x,
  (a_cost a = ArgNone -> cost_withGradients predict ex inner x = Ok (z 1, repeat (z 0) (length x))) /\
  (forall f, a_cost a = ArgFun f -> cost_withGradients predict ex inner x = Ok (f x)).
Proof. exact @fixed_costs. Qed.
Print Assumptions C41_other_costs.

(** In a whole history of runs with sequential evaluation (an object built without the double wrapping of C42): the
    surrogate of the cost has been trained on all rows evaluated by the object, with one cost each. *)
Theorem C41_cost_model_learns_every_row : forall M (E : env M) o, e_obj E = Some o -> o_procs o = 1 -> forall ops s s',
  s_cost s = CostTime 0 None -> history E s ops s' -> ops <> [] ->
  let rows := skipn (match s_Y s with None => 0 | Some _ => length (s_X s) end) (s_X s') in
  exists k C, s_cost s' = CostTime k (match k with O => None | S _ => Some (rows, C) end) /\ (k = 0 -> rows = []) /\ length C = length rows.
Proof. exact @modular_cost. Qed.
Print Assumptions C41_cost_model_learns_every_row.

Example C41_nonvacuous :
  let E := toy 1 (Some obj1) in
  exists s', history E (bo_init [[z 0]; [z (-1)]] None ArgTime 0) [ORun 10 (LFin (z 2)) LNone q0 None; ORun 10 (LFin (z 1)) LNone q0 None] s' /\
    s_cost s' = CostTime 4 (Some ([[z 0]; [z (-1)]; [z 1]; [z 2]; [z 3]], [[z 1]; [z 1]; [z 1]; [z 1]; [z 1]])).
Proof.
  eexists. split.
  - eexists. split; [vm_compute; reflexivity|]. eexists. split; [vm_compute; reflexivity|reflexivity].
  - vm_compute. reflexivity.
Qed.

(** ---------------------------------------------------------------- C42 *)
(** [inner] is the cost model whose cost_withGradients the acquisition uses.  It is documented to be trained on evaluation
    times; after every history it is still untrained, and consulting it raises. *)
Theorem C42_evaluation_time_refuted : forall M (E : env M) a fork clock fuel dr U (m : M) s inner,
  a_cost a = ArgTime -> bayesian_optimization a fork clock fuel dr U m = Some (Ok (s, inner)) ->
  forall ops s', history_caught E s ops s' ->
    s_cost s' = CostObject inner /\
    forall predict ex x, cost_withGradients predict ex inner x = Raise AttributeError.
Proof. exact @double_wrap_untrained. Qed.
Print Assumptions C42_evaluation_time_refuted.

Example C42_nonvacuous :
  let a := mk_args (Some square3) line (Some [[z 0]; [z (-1)]]) None "random" 5 false 1 1 ArgTime in
  let dr := fun _ : nat => mk_draws (fun _ _ => 0) (fun _ _ => q0) (fun _ _ => q0) in
  exists s s', bayesian_optimization a true nat2q 5 dr [] 0 = Some (Ok (s, CostTime 0 None)) /\
    history_caught (toy 1 (the_objective a true)) s [ORun 10 (LFin (z 2)) LNone q0 None] s' /\ length (s_X s') = 4.
Proof.
  cbv zeta. eexists. eexists. split; [vm_compute; reflexivity|]. split.
  - eexists. eexists. split; [vm_compute; reflexivity|reflexivity].
  - vm_compute. reflexivity.
Qed.

(** ---------------------------------------------------------------- C43 *)
(** Costs of sequential evaluation: one per row.  Costs of parallel evaluation: an n x 1 array of ones, from which the cost
    model makes one row of n numbers.  On a first update this is rejected unless n = 1, and the cost model is unusable ever
    after: no later update succeeds or changes it. *)
Theorem C43_sequential_costs_fit : forall o clock h t x h' t' ys cs, o_procs o = 1 ->
  evaluate o clock h t x = (h', t', Some (Ok (ys, cs))) -> exists l, cs = CList l /\ length l = length x.
Proof. exact evaluate_costs. Qed.
Print Assumptions C43_sequential_costs_fit.

Theorem C43_parallel_costs_refuted : forall o clock h t x h' t' ys cs lg fit c r, 2 <= o_procs o -> o_fork o = true ->
  evaluate o clock h t x = (h', t', Some (Ok (ys, cs))) ->
  update_cost_model lg fit (CostTime 0 None) x cs = (c, r) ->
  (length x <> 1 -> r = Raise AssertionError /\
     forall ups c', cost_history_caught lg fit c ups c' -> c' = c /\ (ups <> [] -> ~ cost_history lg fit c ups c')) /\
  (length x = 1 -> c = CostTime 1 (Some (x, [[lg q1]])) /\ r = match fit x [[lg q1]] with None => Ok tt | Some e => Raise e end).
Proof. exact parallel_costs. Qed.
Print Assumptions C43_parallel_costs_refuted.

Theorem C43_parallel_costs_later_refuted : forall o clock h t x h' t' ys cs lg fit k X0 C0, 2 <= o_procs o -> o_fork o = true ->
  evaluate o clock h t x = (h', t', Some (Ok (ys, cs))) ->
  C0 <> [] -> Forall (fun r => length r = 1) C0 -> length x <> 1 ->
  update_cost_model lg fit (CostTime (S k) (Some (X0, C0))) x cs = (CostTime (S k) (Some (X0, C0)), Raise ValueError).
Proof. exact parallel_costs_later. Qed.
Print Assumptions C43_parallel_costs_later_refuted.

Example C43_nonvacuous :
  exists h t ys cs c r, evaluate (mk_obj square3 2 true) nat2q [] 0 [[z 1]; [z 2]] = (h, t, Some (Ok (ys, cs))) /\
    update_cost_model (fun x => x) (fun _ _ => None) (CostTime 0 None) [[z 1]; [z 2]] cs = (c, r) /\ r = Raise AssertionError.
Proof. do 6 eexists. split; [vm_compute; reflexivity|]. split; vm_compute; reflexivity. Qed.
