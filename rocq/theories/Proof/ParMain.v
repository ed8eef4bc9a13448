(** Schedules and the functional model of parallel evaluation. *)
From Coq Require Import String List ZArith QArith Qcanon Bool Arith Lia.
From Verif.Model Require Import Py Space Design Optim Objective Parallel BO.
From Verif.Spec Require Import BOSpec.
From Verif.Proof Require Import Num BOP BOLoop BOMain BOMain2 BOExtra ParP.
Import ListNotations.
Local Open Scope nat_scope.

Lemma values_unique f x ys ys' : values_at f x ys -> values_at f x ys' -> ys = ys'.
Proof.
  intros V. revert ys'. induction V as [|a y x ys H V IH]; intros ys' V'; inversion V' as [|? y' ? ys2 H' V2]; subst; [reflexivity|].
  f_equal; [|now apply IH]. specialize (H []). specialize (H' []). congruence.
Qed.
Theorem parallel_same f n fork clock h t x h1 t1 ys cs h2 t2 ys2 cs2 : stateless f -> 1 <= n ->
  evaluate (mk_obj f n fork) clock h t x = (h1, t1, Some (Ok (ys, cs))) ->
  evaluate (mk_obj f 1 fork) clock h t x = (h2, t2, Some (Ok (ys2, cs2))) -> ys = ys2 /\ values_at f x ys.
Proof.
  intros S N E1 E2.
  pose proof (evaluate_values (mk_obj f n fork) _ _ _ _ _ _ _ _ S N E1) as V1.
  pose proof (evaluate_values (mk_obj f 1 fork) _ _ _ _ _ _ _ _ S (le_n 1) E2) as V2. cbn [o_fun] in *.
  split; [eapply values_unique; eauto|exact V1].
Qed.

Lemma mapM_map {A B C} (g : A -> B) (f : B -> res C) l : mapM f (map g l) = mapM (fun a => f (g a)) l.
Proof. induction l as [|a l IH]; cbn; [reflexivity|]. rewrite IH. reflexivity. Qed.
Lemma children_results f clock n h t x : mapM (child f clock h t) (divided_samples n x) = mapM (result f n h x) (seq 0 n).
Proof.
  unfold divided_samples. rewrite mapM_map. apply mapM_ext. intros i. unfold result. apply child_eval_all.
Qed.

Theorem schedule_function o clock h t x fits Y cs : o_fork o = true -> (forall m, fits m = true) ->
  parallel_evaluation o clock h t x = Some (Ok (Y, cs)) ->
  forall k s, psteps (o_fun o) (o_procs o) h x fits k par_init s -> (forall s', ~ pstep (o_fun o) (o_procs o) h x fits s s') ->
  ps_parent s = PDone Y.
Proof.
  intros F FI. unfold parallel_evaluation. rewrite F. cbn [negb andb]. rewrite children_results.
  destruct (mapM _ _) as [ms|e] eqn:M; [|discriminate]. intros E. injection E as <- _. intros k s H ST.
  eapply par_success; eauto.
Qed.

Lemma eval_all_ok f : stateless f -> forall rows h, (forall r, In r rows -> exists y, f h r = Ok y) -> exists l, eval_all f h rows = Ok l.
Proof.
  intros S. induction rows as [|r rows IH]; intros h H; cbn; [eauto|]. destruct (H r (or_introl eq_refl)) as (y & ->).
  destruct (IH (h ++ [r])) as (l & ->); [|eauto]. intros a I. destruct (H a (or_intror I)) as (b & B). exists b. now rewrite (S _ h).
Qed.
Lemma eval_all_raise f : stateless f -> forall rows h r e, In r rows -> f h r = Raise e -> exists e', eval_all f h rows = Raise e'.
Proof.
  intros S. induction rows as [|a rows IH]; intros h r e I H; [destruct I|]. cbn. destruct (f h a) as [y|e'] eqn:F; [|eauto].
  destruct I as [->|I]; [congruence|]. destruct (IH (h ++ [a]) r e I) as (e' & ->); [|eauto]. now rewrite (S _ h).
Qed.
Lemma mapM_ok_all {A B} (g : A -> res B) l ms : mapM g l = Ok ms -> forall a, In a l -> exists b, g a = Ok b.
Proof.
  revert ms. induction l as [|a l IH]; intros ms H x I; [destruct I|]. cbn in H. destruct (g a) eqn:G; cbn in H; [|discriminate].
  destruct (mapM g l) eqn:R; cbn in H; [|discriminate]. destruct I as [->|I]; [eauto|eapply IH; eauto].
Qed.

Theorem every_schedule f n h x fits : stateless f -> 1 <= n ->
  (forall r, In r x -> exists y, f h r = Ok y) -> (forall m, fits m = true) ->
  forall k s, psteps f n h x fits k par_init s -> (forall s', ~ pstep f n h x fits s s') ->
  exists Y, ps_parent s = PDone Y /\ values_at f x Y.
Proof.
  intros S N H FI k s ST SK.
  destruct (mapM_not_raise (result f n h x) (seq 0 n)) as (ms & M).
  { intros i _. apply eval_all_ok; [exact S|]. intros r I. apply H. now apply (stride_In n x i). }
  set (o := mk_obj f n true).
  assert (PE : parallel_evaluation o (fun _ => q0) h 0 x = Some (Ok (collect n 0 (repeat q0 (length x)) ms, CMat (map (fun _ => [q1]) x)))).
  { unfold parallel_evaluation, o. cbn [o_fork o_procs o_fun negb andb]. now rewrite children_results, M. }
  exists (collect n 0 (repeat q0 (length x)) ms). split; [eapply par_success; eauto|].
  exact (proj1 (parallel_values o _ _ _ _ _ _ S N PE)).
Qed.

Definition schedule_bound (n : nat) (x : mat) : nat :=
  3 * n + 3 + fold_right Nat.add 0 (map (fun i => length (stride n i x) + 3) (seq 0 n)).
Lemma csum_new n x : forall k, csum n x (fun _ => CNew) k = fold_right Nat.add 0 (map (fun i => length (stride n i x) + 3) (seq 0 k)).
Proof.
  assert (G : forall l a, fold_right Nat.add 0 (l ++ [a]) = a + fold_right Nat.add 0 l) by (induction l as [|b l IH]; intros a; cbn; [lia|rewrite IH; lia]).
  induction k as [|k IH]; [reflexivity|]. rewrite seq_S, map_app. cbn [map plus]. rewrite G, <- IH. reflexivity.
Qed.
Theorem schedules_finite f n h x fits k s : psteps f n h x fits k par_init s -> k <= schedule_bound n x.
Proof.
  intros H. apply schedules_bounded in H. unfold measure in H. cbn [ps_parent ps_child par_init pmeasure] in H. rewrite csum_new in H.
  unfold schedule_bound. lia.
Qed.

Theorem fall_back f n clock h t x : 1 <= n -> evaluate (mk_obj f n false) clock h t x = evaluate (mk_obj f 1 false) clock h t x.
Proof.
  intros N. unfold evaluate. cbn [o_procs o_fun]. destruct (Nat.eqb_spec n 1) as [->|E]; [reflexivity|].
  unfold parallel_evaluation. cbn [o_fork o_procs negb andb]. destruct (Nat.ltb_spec 0 n); [reflexivity|lia].
Qed.

Theorem hangs f n h x fits : stateless f -> 1 <= n ->
  (exists r e, In r x /\ f h r = Raise e) \/ (forall m, fits m = false) ->
  forall k s, psteps f n h x fits k par_init s -> forall Y, ps_parent s <> PDone Y.
Proof.
  intros S N D k s H Y E. destruct (par_safe f n h x fits k s Y H E) as (ms & M & FM & _).
  destruct D as [(r & e & I & R)|D].
  - destruct (stride_cover n x r N I) as (i & L & IS).
    destruct (mapM_ok_all _ _ _ M i) as (m & RM); [apply in_seq; lia|].
    destruct (eval_all_raise f S _ h r e IS R) as (e' & RE). unfold result in RM. congruence.
  - destruct ms as [|m ms].
    + apply mapM_length in M. rewrite seq_length in M. cbn in M. lia.
    + specialize (FM m (or_introl eq_refl)). rewrite D in FM. discriminate.
Qed.

Theorem batch_size_processes M a fork clock fuel dr U (m : M) s inner f X :
  a_f a = Some f -> a_X a = Some X -> a_Y a = None ->
  bayesian_optimization a fork clock fuel dr U m = Some (Ok (s, inner)) ->
  (a_batch_size a = 1 -> s_hist s = X) /\ (2 <= a_batch_size a -> fork = true -> s_hist s = []).
Proof.
  intros AF AX AY B. set (o := mk_obj (sign (a_maximize a) f) (a_batch_size a) fork).
  assert (O : the_objective a fork = Some o) by (unfold the_objective; now rewrite AF).
  destruct (construct_spec _ _ _ _ _ _ _ _ _ _ O B) as (_ & _ & X0 & Y & SX & SY & D). rewrite AX, AY in D. destruct D as (-> & t & cs & EV).
  split.
  - intros P. apply (evaluate_seq_ok o _ _ _ _ _ _ _ _ P) in EV. apply EV.
  - intros P ->. unfold evaluate in EV. replace (Nat.eqb (o_procs o) 1) with false in EV by (symmetry; apply Nat.eqb_neq; cbn; lia).
    unfold parallel_evaluation in EV. cbn [o_fork o negb andb] in EV. destruct (mapM _ _); [|discriminate]. now injection EV as <-.
Qed.

Lemma parallel_cost_shape o clock h t x h' t' ys cs : 2 <= o_procs o -> o_fork o = true ->
  evaluate o clock h t x = (h', t', Some (Ok (ys, cs))) -> cs = CMat (map (fun _ => [q1]) x).
Proof.
  intros P F. unfold evaluate. replace (Nat.eqb (o_procs o) 1) with false by (symmetry; apply Nat.eqb_neq; lia).
  unfold parallel_evaluation. rewrite F. cbn [negb andb]. destruct (mapM _ _); [|discriminate]. intros E. now injection E as _ _ _ <-.
Qed.
Theorem parallel_costs o clock h t x h' t' ys cs lg fit c r : 2 <= o_procs o -> o_fork o = true ->
  evaluate o clock h t x = (h', t', Some (Ok (ys, cs))) ->
  update_cost_model lg fit (CostTime 0 None) x cs = (c, r) ->
  (length x <> 1 -> r = Raise AssertionError /\
     forall ups c', cost_history_caught lg fit c ups c' -> c' = c /\ (ups <> [] -> ~ cost_history lg fit c ups c')) /\
  (length x = 1 -> c = CostTime 1 (Some (x, [[lg q1]])) /\ r = match fit x [[lg q1]] with None => Ok tt | Some e => Raise e end).
Proof. intros P F EV. rewrite (parallel_cost_shape _ _ _ _ _ _ _ _ _ P F EV). apply parallel_cost_first. Qed.
Theorem parallel_costs_later o clock h t x h' t' ys cs lg fit k X0 C0 : 2 <= o_procs o -> o_fork o = true ->
  evaluate o clock h t x = (h', t', Some (Ok (ys, cs))) ->
  C0 <> [] -> Forall (fun r => length r = 1) C0 -> length x <> 1 ->
  update_cost_model lg fit (CostTime (S k) (Some (X0, C0))) x cs = (CostTime (S k) (Some (X0, C0)), Raise ValueError).
Proof.
  intros P F EV NE FA L. rewrite (parallel_cost_shape _ _ _ _ _ _ _ _ _ P F EV).
  destruct (parallel_cost_later lg fit k X0 C0 x NE FA L) as (e & -> & ->). reflexivity.
Qed.
