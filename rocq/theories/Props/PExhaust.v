(** C105: on finite spaces the search is complete.  Specification: Spec/PipelineSpec.v, Spec/BOSpec.v.  Model: Model/Pipeline.v, Model/BO.v. *)
From Coq Require Import String List ZArith QArith Qcanon Bool Lia.
From Verif.Model Require Import Py Space Design Optim Objective BO Pipeline.
From Verif.Spec Require Import SpaceSpec DesignSpec ContextSpec SuggestSpec BOSpec PipelineSpec Examples BOExamples.
From Verif.Proof Require Import Num Dec SuggestEx PipelineP ExhaustP BOMain.
From Verif.Props Require Import PLoop PPipeline.
Import ListNotations.
Local Open Scope nat_scope.

(** A deterministic objective on a space without continuous variables, with de_duplication: a run that returns after at least as many
    iterations as there were configurations left reports the minimum over the whole domain. *)
Theorem C105_global_optimum : forall M (E : env M) (g : suggester M) ds cs fuel s mi mt eps oc s' o,
  design_space ds cs = Ok (e_space E) -> Forall wf_kind (kinds (e_space E)) -> Forall canonical_cats (kinds (e_space E)) ->
  finite (kinds (e_space E)) -> e_dedup E = true -> sg_ev g <> ELP -> sound g -> good_context (e_space E) oc ->
  e_obj E = Some o -> 1 <= o_procs o -> stateless (o_fun o) -> (forall Y, s_Y s = Some Y -> values_at (o_fun o) (s_X s) Y) ->
  NoDup (s_X s) -> Forall (in_domain (kinds (e_space E))) (s_X s) ->
  run_optimization fuel (with_suggester E g) s mi mt eps oc = (s', Some (Ok tt)) ->
  configurations (kinds (e_space E)) - length (s_X s) <= s_num s' ->
  exists y_best x_opt fx_opt, s_report s' = Some (y_best, x_opt, fx_opt) /\ in_domain (kinds (e_space E)) x_opt /\ (forall h, o_fun o h x_opt = Ok fx_opt) /\
    forall x, in_domain (kinds (e_space E)) x -> exists y, (forall h, o_fun o h x = Ok y) /\ (fx_opt <= y)%Qc.
Proof.
  intros M E g ds cs fuel s mi mt eps oc s' o D W CC F DD NL S G O P ST V N I H C.
  assert (HC : history_caught (with_suggester E g) s [ORun fuel mi mt eps oc] s') by (eexists _, _; split; [exact H|reflexivity]).
  assert (I' : Forall (in_domain (kinds (e_space E))) (s_X s')).
  { apply (C79_rows_in_domain M E g ds cs [ORun fuel mi mt eps oc] s s'); auto. repeat constructor; exact G. }
  assert (N' : NoDup (s_X s')) by exact (C80_no_configuration_twice M E g _ s s' DD NL HC N).
  pose proof (run_count E g _ _ _ _ _ _ _ H) as RC.
  assert (ALL := all_present _ _ F I' N' ltac:(lia)).
  assert (HH : history (with_suggester E g) s [ORun fuel mi mt eps oc] s') by (eexists; split; [exact H|reflexivity]).
  destruct (C30_aligned_and_append_only M (with_suggester E g) o [ORun fuel mi mt eps oc] s s' O P HH) as (new & ys & Y' & X' & EY & EV & _ & VA).
  { discriminate. } { intros Y EQ. specialize (V Y EQ). clear - V. unfold aligned. induction V; cbn; congruence. }
  specialize (VA ST).
  assert (VV : values_at (o_fun o) (s_X s') Y').
  { rewrite X', EV. unfold values_so_far, pending_rows in *. destruct (s_Y s) as [Y|].
    - apply Forall2_app; [exact (V Y eq_refl)|exact VA].
    - exact VA. }
  destruct (C33_reported_optimum M fuel (with_suggester E g) s mi mt eps oc s' o O H) as (Y2 & yb & x & fx & i & EY2 & R & [IM LM] & _ & YI & XI & _).
  assert (Y2 = Y') as -> by congruence. exists yb, x, fx. split; [exact R|].
  assert (PT : forall j t y, nth_error (s_X s') j = Some t -> nth_error Y' j = Some y -> forall h, o_fun o h t = Ok y).
  { clear - VV. induction VV as [|t y X Y HV _ IH]; intros [|j] t' y' A B; try discriminate; cbn in A, B; [injection A as <-; injection B as <-; exact HV|eauto]. }
  split; [rewrite Forall_forall in I'; apply I'; eapply nth_error_In; eauto|]. split; [exact (PT i x fx XI YI)|].
  intros t T. specialize (ALL t T). apply In_nth_error in ALL as (j & J).
  assert (YJ : exists y, nth_error Y' j = Some y).
  { clear - VV J. revert j J. induction VV as [|a b X Y HV _ IH]; intros [|j] J; try discriminate; [eexists; reflexivity|exact (IH j J)]. }
  destruct YJ as (y & YJ). exists y. split; [exact (PT j t y J YJ)|]. apply LM. eapply nth_error_In; eauto.
Qed.
Print Assumptions C105_global_optimum.

(** In particular: the number of configurations left as iteration limit, no time limit, tolerance 0, a surrogate that can be trained.  If
    the run returns, it has found the minimum. *)
Theorem C105_budget : forall M (E : env M) (g : suggester M) ds cs fuel s oc s' o,
  design_space ds cs = Ok (e_space E) -> Forall wf_kind (kinds (e_space E)) -> Forall canonical_cats (kinds (e_space E)) ->
  finite (kinds (e_space E)) -> e_dedup E = true -> sg_ev g <> ELP -> sound g -> good_context (e_space E) oc ->
  e_obj E = Some o -> 1 <= o_procs o -> stateless (o_fun o) -> (forall Y, s_Y s = Some Y -> values_at (o_fun o) (s_X s) Y) ->
  NoDup (s_X s) -> Forall (in_domain (kinds (e_space E))) (s_X s) ->
  (forall m X Y, snd (e_update E m X Y) <> Some LinAlgError) ->
  run_optimization fuel (with_suggester E g) s (LFin (nat2q (configurations (kinds (e_space E)) - length (s_X s)))) LNone 0 oc = (s', Some (Ok tt)) ->
  exists y_best x_opt fx_opt, s_report s' = Some (y_best, x_opt, fx_opt) /\ in_domain (kinds (e_space E)) x_opt /\ (forall h, o_fun o h x_opt = Ok fx_opt) /\
    forall x, in_domain (kinds (e_space E)) x -> exists y, (forall h, o_fun o h x = Ok y) /\ (fx_opt <= y)%Qc.
Proof.
  intros M E g ds cs fuel s oc s' o D W CC F DD NL S G O P ST V N I U H.
  apply (C105_global_optimum M E g ds cs fuel s _ _ _ oc s' o D W CC F DD NL S G O P ST V N I H).
  assert (HC : history_caught (with_suggester E g) s [ORun fuel (LFin (nat2q (configurations (kinds (e_space E)) - length (s_X s)))) LNone 0 oc] s') by (eexists _, _; split; [exact H|reflexivity]).
  assert (I' : Forall (in_domain (kinds (e_space E))) (s_X s')).
  { eapply (C79_rows_in_domain M E g ds cs _ s s'); [exact D|exact W|exact CC|exact S| |exact HC|exact I]. repeat constructor; exact G. }
  assert (N' : NoDup (s_X s')) by exact (C80_no_configuration_twice M E g _ s s' DD NL HC N).
  destruct (C32_stops_for_a_documented_reason M fuel (with_suggester E g) s _ _ _ oc s' o O H) as (_ & [(q & [Q|(Q & _)] & L)|[(t & T & _)|[(pre & a & b & X & WE)|(m & Xm & Ym & UU & _ & LE)]]] & _).
  - injection Q as <-. apply nat2q_le in L. exact L.
  - discriminate Q.
  - discriminate T.
  - exfalso. rewrite X in I', N'. apply Forall_app in I' as [_ I']. inversion I' as [|? ? Ib I2]; subst. inversion I2 as [|? ? Ia _]; subst.
    pose proof (within_zero _ a b W Ia Ib WE) as ->. apply NoDup_remove_2 in N'. apply N'. apply in_or_app. right. now left.
  - exfalso. exact (U _ _ _ LE).
Qed.
Print Assumptions C105_budget.

(** Six configurations, one evaluated: five iterations find the minimum 1 of the sum, at (1, 0). *)
Example C105_nonvacuous :
  stateless (o_fun (mk_obj (fun _ x => Ok (qsum x)) 1 true)) /\ configurations (kinds (e_space E_six)) - length (s_X s_six) = 5 /\
  (forall m X Y, snd (e_update E_six m X Y) <> Some LinAlgError) /\
  exists s' yb x fx, run_optimization 10 (with_suggester E_six (g_six ESequential 1)) s_six (LFin (nat2q 5)) LNone 0 None = (s', Some (Ok tt)) /\
    s_report s' = Some (yb, x, fx) /\ x = [z 1; z 0] /\ fx = z 1.
Proof.
  split; [intros h h' x; reflexivity|]. split; [reflexivity|]. split; [discriminate|]. do 4 eexists. split; [vm_compute; reflexivity|]. split; [vm_compute; reflexivity|].
  split; vm_compute; reflexivity.
Qed.

(** C106.  The optimum reported after any further operations is no worse than any value known before: those the user supplied, and those of
    all earlier runs. *)
Theorem C106_no_worse_than_known : forall M (E : env M) o ops s s1 fuel mi mt eps oc s2,
  e_obj E = Some o -> 1 <= o_procs o -> (forall Y, s_Y s = Some Y -> aligned (s_X s) Y) -> history E s ops s1 ->
  run_optimization fuel E s1 mi mt eps oc = (s2, Some (Ok tt)) ->
  exists y_best x_opt fx_opt, s_report s2 = Some (y_best, x_opt, fx_opt) /\ forall Y y, s_Y s = Some Y -> In y Y -> (fx_opt <= y)%Qc.
Proof.
  intros M E o ops s s1 fuel mi mt eps oc s2 O P A H R.
  assert (HH : history E s (ops ++ [ORun fuel mi mt eps oc]) s2).
  { clear - H R. revert s H. induction ops as [|op ops IH]; intros s H; cbn [app history] in *.
    - subst s1. exists s2. split; [exact R|reflexivity].
    - destruct H as (s0 & H1 & H2). exists s0. split; [exact H1|]. now apply IH. }
  destruct (C30_aligned_and_append_only M E o _ s s2 O P HH) as (new & ys & Y' & _ & EY & EV & _); [destruct ops; discriminate|exact A|].
  destruct (C33_reported_optimum M fuel E s1 mi mt eps oc s2 o O R) as (Y2 & yb & x & fx & i & EY2 & RP & [_ LM] & _).
  exists yb, x, fx. split; [exact RP|]. intros Y y SY IY. apply LM. assert (Y2 = Y') as -> by congruence. rewrite EV. apply in_or_app. left.
  unfold values_so_far. rewrite SY. exact IY.
Qed.
Print Assumptions C106_no_worse_than_known.
(** So the optimum of a later run is never worse than that of an earlier one, whatever happened in between. *)
Theorem C106_runs_improve : forall M (E : env M) o s fuel mi mt eps oc s1 ops s2 fuel' mi' mt' eps' oc' s3 yb x fx yb' x' fx',
  e_obj E = Some o -> 1 <= o_procs o -> (forall Y, s_Y s = Some Y -> aligned (s_X s) Y) ->
  run_optimization fuel E s mi mt eps oc = (s1, Some (Ok tt)) -> history E s1 ops s2 -> run_optimization fuel' E s2 mi' mt' eps' oc' = (s3, Some (Ok tt)) ->
  s_report s1 = Some (yb, x, fx) -> s_report s3 = Some (yb', x', fx') -> (fx' <= fx)%Qc.
Proof.
  intros M E o s fuel mi mt eps oc s1 ops s2 fuel' mi' mt' eps' oc' s3 yb x fx yb' x' fx' O P A R1 H R3 RP RP'.
  destruct (C33_reported_optimum M fuel E s mi mt eps oc s1 o O R1) as (Y & yb1 & x1 & fx1 & i & EY & RP1 & [IN _] & _).
  assert (HH : history E s [ORun fuel mi mt eps oc] s1) by (eexists; split; [exact R1|reflexivity]).
  destruct (C30_aligned_and_append_only M E o _ s s1 O P HH) as (new & ys & Y' & _ & EY' & _ & AL & _); [discriminate|exact A|].
  destruct (C106_no_worse_than_known M E o ops s1 s2 fuel' mi' mt' eps' oc' s3 O P) as (yb3 & x3 & fx3 & RP3 & L).
  { intros Y0 EQ. assert (Y0 = Y') as -> by congruence. exact AL. } { exact H. } { exact R3. }
  assert (fx3 = fx') as <- by congruence. assert (fx1 = fx) as <- by congruence. exact (L Y fx1 EY IN).
Qed.
Print Assumptions C106_runs_improve.
Example C106_nonvacuous :
  let E := toy 1 (Some obj1) in exists s1 s2 s3 yb x yb' x',
    run_optimization 10 E (fresh None) (LFin (z 1)) LNone q0 None = (s1, Some (Ok tt)) /\ history E s1 [OSuggest None None None] s2 /\
    run_optimization 10 E s2 (LFin (z 2)) LNone q0 None = (s3, Some (Ok tt)) /\ s_report s1 = Some (yb, x, z 4) /\ s_report s3 = Some (yb', x', z 0).
Proof.
  cbv zeta. do 7 eexists. split; [vm_compute; reflexivity|]. split; [eexists; split; [vm_compute; reflexivity|reflexivity]|].
  split; [vm_compute; reflexivity|]. split; vm_compute; reflexivity.
Qed.
