(** C88-C90: splitting a run, and evaluating the objective outside of GPyOpt.
    Specification: Spec/SessionSpec.v.  Model: Model/Session.v (with BO.v and Pipeline.v). *)
From Coq Require Import String List ZArith QArith Qcanon Bool Lia Permutation.
From Verif.Model Require Import Py Space Design Optim Objective BO Pipeline Session.
From Verif.Spec Require Import SpaceSpec DesignSpec ContextSpec SuggestSpec BOSpec PipelineSpec SessionSpec Examples BOExamples.
From Verif.Proof Require Import Num Dec SuggestEx SuggestMain PipelineP SessionP.
From Verif.Props Require Import PPipeline.
Import ListNotations.
Local Open Scope nat_scope.
Local Open Scope string_scope.
Local Open Scope list_scope.

(** A surrogate that remembers how many rows it was fitted to and suggests the next number; with [restart] it moves on each
    time it is fitted. *)
Definition learner (interval : Z) (restart : bool) : env nat :=
  mk_env nat line true interval None (Some obj1) (fun m _ _ => (m, Some (Ok [[nat2q (S m)]])))
    (fun m X Y => (if restart then S m else length X, None)) (fun m => Some [nat2q m]) nat2q (fun x => x) (fun _ _ => None).
Definition started : st nat := fresh (Some [z 9; z 16]).
Definition rows_after (E : env nat) (s : st nat) (n : nat) : mat := s_X (fst (run_optimization 20 E s (LFin (nat2q n)) LInf (z (-1)) None)).

(** ---------------------------------------------------------------- C88 *)
(** A run of a + b iterations that returns normally can be split: the first a iterations return normally too, and a second
    run of b iterations on the same object ends with the same evaluations, values, report and surrogate, having called the
    objective in the same order.  The surrogate has to be updated in each iteration, not to change when it is fitted again to
    the same data, and not to fail; the cost must not be the measured time. *)
Theorem C88_split : forall M (E : env M) o (a b : nat) fuel s s' eps ctx,
  e_obj E = Some o -> e_interval E = 1%Z -> fits E -> refit_stable E -> is_time_cost (s_cost s) = false ->
  s_X s <> [] -> (forall Y, s_Y s = Some Y -> length (s_X s) = length Y) ->
  run_optimization fuel E s (LFin (nat2q (a + b))) LInf eps ctx = (s', Some (Ok tt)) ->
  exists s1 s2, run_optimization fuel E s (LFin (nat2q a)) LInf eps ctx = (s1, Some (Ok tt)) /\
    run_optimization fuel E s1 (LFin (nat2q b)) LInf eps ctx = (s2, Some (Ok tt)) /\
    s_X s2 = s_X s' /\ s_Y s2 = s_Y s' /\ s_report s2 = s_report s' /\ s_hist s2 = s_hist s' /\ s_model s2 = s_model s' /\
    s_num s' = s_num s1 + s_num s2.
Proof. intros M E o a b fuel s s' eps ctx. exact (split_run E o a b fuel s s' eps ctx). Qed.
Print Assumptions C88_split.

(** With model_update_interval = 2 a pause changes the points: the second run fits the surrogate at once, the long run does not. *)
Theorem C88_interval_refuted :
  fits (learner 2 false) /\ refit_stable (learner 2 false) /\ is_time_cost (s_cost started) = false /\
  exists s1, run_optimization 20 (learner 2 false) started (LFin (nat2q 1)) LInf (z (-1)) None = (s1, Some (Ok tt)) /\
    rows_after (learner 2 false) started 3 = [[z 0]; [z (-1)]; [z 3]; [z 3]; [z 5]] /\
    rows_after (learner 2 false) s1 2 = [[z 0]; [z (-1)]; [z 3]; [z 4]; [z 4]].
Proof.
  split; [intros m X Y; discriminate|]. split; [intros m X Y m' [= <-]; reflexivity|]. split; [reflexivity|].
  eexists. split; [vm_compute; reflexivity|]. split; vmeq.
Qed.
Print Assumptions C88_interval_refuted.

(** So does it when fitting again to the same data gives another surrogate, as with randomly restarted fits: the pause costs
    an additional fit. *)
Theorem C88_refit_refuted :
  fits (learner 1 true) /\ ~ refit_stable (learner 1 true) /\ is_time_cost (s_cost started) = false /\
  exists s1, run_optimization 20 (learner 1 true) started (LFin (nat2q 1)) LInf (z (-1)) None = (s1, Some (Ok tt)) /\
    rows_after (learner 1 true) started 2 = [[z 0]; [z (-1)]; [z 2]; [z 3]] /\
    rows_after (learner 1 true) s1 1 = [[z 0]; [z (-1)]; [z 2]; [z 4]].
Proof.
  split; [intros m X Y; discriminate|]. split; [intro H; specialize (H 0 [] [] 1 eq_refl); discriminate|]. split; [reflexivity|].
  eexists. split; [vm_compute; reflexivity|]. split; vmeq.
Qed.
Print Assumptions C88_refit_refuted.

Example C88_nonvacuous :
  e_obj (learner 1 false) = Some obj1 /\ fits (learner 1 false) /\ refit_stable (learner 1 false) /\ is_time_cost (s_cost started) = false /\
  s_X started <> [] /\ (forall Y, s_Y started = Some Y -> length (s_X started) = length Y) /\
  exists s', run_optimization 20 (learner 1 false) started (LFin (nat2q (1 + 2))) LInf (z (-1)) None = (s', Some (Ok tt)) /\
    s_X s' = [[z 0]; [z (-1)]; [z 3]; [z 4]; [z 5]] /\ s_num s' = 3.
Proof.
  split; [reflexivity|]. split; [intros m X Y; discriminate|]. split; [intros m X Y m' [= <-]; reflexivity|]. split; [reflexivity|].
  split; [discriminate|]. split; [intros Y [= <-]; reflexivity|]. eexists. split; [vm_compute; reflexivity|]. split; [vmeq|reflexivity].
Qed.

(** ---------------------------------------------------------------- C89 *)
(** Evaluating the objective outside of GPyOpt gives the same points and values as run_optimization: for every run that
    returns normally, as many rounds of "build a new object from all data, ask, evaluate, append" as the run made iterations
    call the function on the same points in the same order and end with the same data.  The objective is evaluated in one
    process, the surrogate is updated in each iteration and depends on the data only. *)
Theorem C89_ask_tell_is_run : forall M (E : env M) o (renew : M -> M) (cost : costarg) fuel s mi mt eps ctx s' Y,
  e_obj E = Some o -> o_procs o = 1 -> e_interval E = 1%Z -> memoryless E renew -> s_Y s = Some Y ->
  run_optimization fuel E s mi mt eps ctx = (s', Some (Ok tt)) ->
  exists Y', s_Y s' = Some Y' /\
    ask_tell (s_num s') E renew cost (o_fun o) ctx (s_model s) (s_X s) Y (s_hist s) = Some (Ok (s_X s', Y', s_hist s')).
Proof. intros M E o renew cost fuel s mi mt eps ctx s' Y O P I ML SY R. exact (run_ask E o renew cost I ML P fuel s mi mt eps ctx s' Y O SY R). Qed.
Print Assumptions C89_ask_tell_is_run.

(** With model_update_interval = 2 they differ: a new object always fits its surrogate. *)
Theorem C89_interval_refuted :
  memoryless (learner 2 false) (fun _ => 0) /\
  rows_after (learner 2 false) started 3 = [[z 0]; [z (-1)]; [z 3]; [z 3]; [z 5]] /\
  exists Y h, ask_tell 3 (learner 2 false) (fun _ => 0) ArgNone square3 None 0 (s_X started) [z 9; z 16] [] =
    Some (Ok ([[z 0]; [z (-1)]; [z 3]; [z 4]; [z 5]], Y, h)).
Proof. split; [intros m X Y; reflexivity|]. split; [vmeq|]. eexists _, _. vm_compute. reflexivity. Qed.
Print Assumptions C89_interval_refuted.

Example C89_nonvacuous :
  e_obj (learner 1 false) = Some obj1 /\ o_procs obj1 = 1 /\ memoryless (learner 1 false) (fun _ => 0) /\ s_Y started = Some [z 9; z 16] /\
  exists s', run_optimization 20 (learner 1 false) started (LFin (nat2q 3)) LInf (z (-1)) None = (s', Some (Ok tt)) /\ s_num s' = 3 /\
    s_X s' = [[z 0]; [z (-1)]; [z 3]; [z 4]; [z 5]] /\ s_Y s' = Some [z 9; z 16; z 0; z 1; z 4] /\ s_hist s' = [[z 3]; [z 4]; [z 5]].
Proof.
  split; [reflexivity|]. split; [reflexivity|]. split; [intros m X Y; reflexivity|]. split; [reflexivity|].
  eexists. split; [vm_compute; reflexivity|]. split; [reflexivity|]. split; [vmeq|split; vmeq].
Qed.

(** ---------------------------------------------------------------- C90 *)
(** Several evaluations under way, with de_duplication and the unfinished points passed as pending_X: for every order of
    asking and of results coming back, no point other than the zero vector is suggested twice or is one of the first points;
    nothing is lost: at each moment the finished and the pending points are the first points and the suggested ones; and
    there is one value per finished point. *)
Theorem C90_no_point_twice : forall M (E : env M) (g : suggester M) (renew : M -> M) cost X0 Y0 m0 ops s',
  e_dedup E = true -> sg_ev g <> ELP -> NoDup X0 -> length X0 = length Y0 ->
  srun (with_suggester E g) renew cost (mk_ss X0 Y0 [] m0 []) ops = Some s' ->
  once (X0 ++ ss_asked s') /\ Permutation (ss_X s' ++ ss_pending s') (X0 ++ ss_asked s') /\ length (ss_X s') = length (ss_Y s').
Proof.
  intros M E g renew cost X0 Y0 m0 ops s' DD NL ND LE H. apply (srun_inv E g renew cost DD NL X0 ops (mk_ss X0 Y0 [] m0 []) s'); auto.
  unfold sinv. cbn [ss_X ss_Y ss_pending ss_asked]. rewrite app_nil_r. split; [now apply nodup_once|auto].
Qed.
Print Assumptions C90_no_point_twice.

(** In particular all points are different when none is the zero vector. *)
Theorem C90_all_different : forall M (E : env M) (g : suggester M) (renew : M -> M) cost X0 Y0 m0 ops s',
  e_dedup E = true -> sg_ev g <> ELP -> NoDup X0 -> length X0 = length Y0 ->
  srun (with_suggester E g) renew cost (mk_ss X0 Y0 [] m0 []) ops = Some s' ->
  Forall nonzero_row (X0 ++ ss_asked s') -> NoDup (X0 ++ ss_asked s').
Proof.
  intros M E g renew cost X0 Y0 m0 ops s' DD NL ND LE H F. apply once_nodup; auto. exact (proj1 (C90_no_point_twice M E g renew cost X0 Y0 m0 ops s' DD NL ND LE H)).
Qed.
Print Assumptions C90_all_different.

(** All suggested points are configurations of the design space. *)
Theorem C90_in_domain : forall M (E : env M) (g : suggester M) (renew : M -> M) cost ds cs X0 Y0 m0 ops s',
  design_space ds cs = Ok (e_space E) -> Forall wf_kind (kinds (e_space E)) -> Forall canonical_cats (kinds (e_space E)) -> sound g ->
  Forall (asks_with (good_context (e_space E))) ops ->
  srun (with_suggester E g) renew cost (mk_ss X0 Y0 [] m0 []) ops = Some s' -> Forall (in_domain (kinds (e_space E))) (ss_asked s').
Proof.
  intros M E g renew cost ds cs X0 Y0 m0 ops s' D W CC S G. apply (srun_domain E g renew cost ds cs D W CC S); auto. constructor.
Qed.
Print Assumptions C90_in_domain.

(** A point passed as pending_X or ignored_X is not suggested, if it is not the zero vector. *)
Theorem C90_pending_and_ignored : forall M (E : env M) (g : suggester M) s ctx pending ignored s' B t,
  e_dedup E = true -> sg_ev g <> ELP -> suggest_next_locations (with_suggester E g) s ctx pending ignored = (s', Some (Ok B)) ->
  nonzero_row t -> (exists P, (pending = Some P \/ ignored = Some P) /\ In t P) -> ~ In t B.
Proof.
  intros M E g s ctx p i s' B t DD NL H (v & Iv & Nv) (P & HP & I) J. apply (suggest_unknown E g DD NL) in H as (_ & _ & U).
  apply (U t J). apply dm_points_spec. right. assert (has_nonzero P) by (exists t, v; auto). destruct HP as [-> | ->]; eauto.
Qed.
Print Assumptions C90_pending_and_ignored.

(** The zero vector is suggested again while it is being evaluated. *)
Definition ds_zero : list descr := [d_disc "c" [z 0; z 1; z 4]].
Definition E_zero : env nat :=
  mk_env nat (the_space ds_zero None) true 1 None None (fun m _ _ => (m, None))
    (fun m X Y => (m, None)) (fun m => Some [nat2q m]) nat2q (fun x => x) (fun _ _ => None).
Theorem C90_zero_vector_refuted :
  e_dedup E_zero = true /\ sg_ev (g_six ESequential 1) <> ELP /\
  exists s', srun (with_suggester E_zero (g_six ESequential 1)) S ArgNone (mk_ss [[z 1]] [z 7] [] 0 []) [Ask None None; Ask None None] = Some s' /\
    ss_asked s' = [[z 0]; [z 0]].
Proof. split; [reflexivity|]. split; [discriminate|]. eexists. split; vm_compute; reflexivity. Qed.
Print Assumptions C90_zero_vector_refuted.

Example C90_nonvacuous :
  e_dedup E_six = true /\ sg_ev (g_six ESequential 1) <> ELP /\ NoDup [[z 1; z 0]] /\
  Forall (asks_with (good_context (e_space E_six))) [Ask None None; Ask (Some [("b", z 1)]) None; Tell 1 (z 5); Ask None (Some [[z 4; z 0]]); Tell 0 (z 6)] /\
  exists s', srun (with_suggester E_six (g_six ESequential 1)) (fun m => m) ArgNone (mk_ss [[z 1; z 0]] [z 7] [] 0 [])
      [Ask None None; Ask (Some [("b", z 1)]) None; Tell 1 (z 5); Ask None (Some [[z 4; z 0]]); Tell 0 (z 6)] = Some s' /\
    ss_asked s' = [[z 1; z 1]; [z 4; z 1]; [z 9; z 1]] /\ ss_X s' = [[z 1; z 0]; [z 4; z 1]; [z 1; z 1]] /\ ss_Y s' = [z 7; z 5; z 6] /\
    ss_pending s' = [[z 9; z 1]].
Proof.
  split; [reflexivity|]. split; [discriminate|]. split; [repeat constructor; simpl; tauto|].
  split; [destruct six_good as (_ & _ & _ & G1 & G2); repeat (constructor; [first [exact G1|exact G2|exact I]|]); constructor|].
  eexists. split; [vm_compute; reflexivity|]. repeat split; vm_compute; reflexivity.
Qed.
