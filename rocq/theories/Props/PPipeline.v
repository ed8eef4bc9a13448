(** C79-C81: whole runs with the real evaluators.
    Specification: Spec/PipelineSpec.v.  Model: Model/Pipeline.v (with Optim.v and BO.v). *)
From Coq Require Import String List ZArith QArith Qcanon Bool Lia.
From Verif.Model Require Import Py Space Design Optim Objective BO Pipeline.
From Verif.Spec Require Import SpaceSpec DesignSpec ContextSpec SuggestSpec BOSpec PipelineSpec Examples BOExamples.
From Verif.Proof Require Import Num Dec SuggestEx PipelineP PipelineP2.
Import ListNotations.
Local Open Scope nat_scope.
Local Open Scope string_scope.
Local Open Scope list_scope.

(** ---------------------------------------------------------------- C79 *)
(** Any sequence of runs and suggestions, with exceptions caught in between: if the first rows are configurations of the
    design space, so are all rows evaluated later. *)
Theorem C79_rows_in_domain : forall M (E : env M) (g : suggester M) ds cs ops s s',
  design_space ds cs = Ok (e_space E) -> Forall wf_kind (kinds (e_space E)) -> Forall canonical_cats (kinds (e_space E)) ->
  sound g -> good_contexts (e_space E) ops -> history_caught (with_suggester E g) s ops s' ->
  Forall (in_domain (kinds (e_space E))) (s_X s) -> Forall (in_domain (kinds (e_space E))) (s_X s').
Proof. intros M E g ds cs ops s s' D W CC S. exact (history_domain ds cs E g D W CC S ops s s'). Qed.
Print Assumptions C79_rows_in_domain.

(** The rows a run adds have the values of its context, whether or not the run ends with an exception. *)
Theorem C79_run_keeps_context : forall M (E : env M) (g : suggester M) ds cs fuel s mi mt eps oc s' r,
  design_space ds cs = Ok (e_space E) -> Forall wf_kind (kinds (e_space E)) -> Forall canonical_cats (kinds (e_space E)) ->
  sound g -> good_context (e_space E) oc -> run_optimization fuel (with_suggester E g) s mi mt eps oc = (s', r) ->
  exists new, s_X s' = s_X s ++ new /\ Forall (in_domain (kinds (e_space E))) new /\ Forall (agrees_with (e_space E) oc) new.
Proof. intros M E g ds cs fuel s mi mt eps oc s' r D W CC S. exact (run_context ds cs E g D W CC S fuel s mi mt eps oc s' r). Qed.
Print Assumptions C79_run_keeps_context.

(** So do the rows suggest_next_locations returns, and there is at least one. *)
Theorem C79_suggestions : forall M (E : env M) (g : suggester M) ds cs s oc pending ignored s' B,
  design_space ds cs = Ok (e_space E) -> Forall wf_kind (kinds (e_space E)) -> Forall canonical_cats (kinds (e_space E)) ->
  sound g -> good_context (e_space E) oc ->
  suggest_next_locations (with_suggester E g) s oc pending ignored = (s', Some (Ok B)) ->
  B <> [] /\ Forall (in_domain (kinds (e_space E))) B /\ Forall (agrees_with (e_space E) oc) B.
Proof. intros M E g ds cs s oc p i s' B D W CC S. exact (suggest_domain ds cs E g D W CC S s oc p i s' B). Qed.
Print Assumptions C79_suggestions.

(** An object over a space with a discrete and a categorical variable, six configurations in all.  The generator goes
    through all of them, the acquisition is the sum of the entries, the solver stays where it starts. *)
Definition ds_six : list descr := [d_disc "c" [z 1; z 4; z 9]; d_cat "b" [z 0; z 1]].
Definition E_six : env nat :=
  mk_env nat (the_space ds_six None) true 1 None (Some (mk_obj (fun _ x => Ok (qsum x)) 1 true)) (fun m _ _ => (m, None))
    (fun m X Y => (m, None)) (fun m => Some [nat2q m]) nat2q (fun x => x) (fun _ _ => None).
Definition g_six (ev : evaluator) (size : nat) : suggester nat :=
  mk_sg ev size (fun _ _ x => Ok (qsum x)) (fun _ _ => None) "lbfgs" "max_objective" (fun _ => None) 6 6
    (fun _ _ => gen_of (fun _ _ => q 1 2)) (fun _ _ => stay) (fun _ V => Ok (map (fun _ => q0) V)) S.
Definition s_six : st nat := bo_init [[z 1; z 0]] None ArgNone 0.
Lemma six_good : design_space ds_six None = Ok (e_space E_six) /\ Forall wf_kind (kinds (e_space E_six)) /\
  Forall canonical_cats (kinds (e_space E_six)) /\ good_context (e_space E_six) None /\ good_context (e_space E_six) (Some [("b", z 1)]).
Proof.
  assert (B : bandit_free (kinds (e_space E_six))) by repeat constructor.
  split; [vm_compute; reflexivity|]. split; [repeat constructor; discriminate|]. split.
  { repeat constructor. simpl. intros x [<-|[<-|[]]]; [exists 0|exists 1]; split; auto; vmeq. }
  split.
  - split; [left; exact B|]. left. split; [exact B|discriminate].
  - split; [exact B|]. split; [discriminate|]. split; [repeat constructor; simpl; intuition discriminate|]. split; [repeat constructor; simpl; tauto|]. split.
    + intros n [<-|[]]. simpl. eexists. split; [right; left; reflexivity|reflexivity].
    + intros n x v [[= <- <-]|[]] [<-|[<-|[]]] E; [discriminate|]. simpl. exists 1. split; [auto|vmeq].
Qed.
Lemma g_six_sound ev size : sound (g_six ev size).
Proof. split; [intros m k; apply gen_const_good; qcle_dec|simpl; lia]. Qed.

Example C79_nonvacuous :
  good_contexts (e_space E_six) [ORun 10 (LFin (z 2)) LNone (z (-1)) (Some [("b", z 1)]); ORun 10 (LFin (z 1)) LNone (z (-1)) None] /\
  exists s', history_caught (with_suggester E_six (g_six ESequential 1)) s_six
      [ORun 10 (LFin (z 2)) LNone (z (-1)) (Some [("b", z 1)]); ORun 10 (LFin (z 1)) LNone (z (-1)) None] s' /\
    s_X s' = [[z 1; z 0]; [z 1; z 1]; [z 4; z 1]; [z 4; z 0]] /\ Forall (in_domain (kinds (e_space E_six))) (s_X s_six).
Proof.
  split; [destruct six_good as (_ & _ & _ & G1 & G2); constructor; [exact G2|constructor; [exact G1|constructor]]|]. eexists. split; [|split].
  - eexists _, _. split; [vm_compute; reflexivity|]. eexists _, _. split; [vm_compute; reflexivity|reflexivity].
  - vm_compute. reflexivity.
  - repeat constructor. apply (blocks_cons _ _ _ [z 1] [z 0]); [exists (z 1); split; [auto|left; auto]|].
    apply (blocks_cons _ _ _ [z 0] []); [exists (z 0); split; [auto|exists 0; split; [simpl; lia|vmeq]]|constructor].
Qed.

(** ---------------------------------------------------------------- C80 *)
(** With de_duplication no configuration is evaluated twice in the life of the object (sequential, random and Thompson
    sampling evaluators), whatever is suggested or raised in between. *)
Theorem C80_no_configuration_twice : forall M (E : env M) (g : suggester M) ops s s',
  e_dedup E = true -> sg_ev g <> ELP -> history_caught (with_suggester E g) s ops s' -> NoDup (s_X s) -> NoDup (s_X s').
Proof. intros M E g ops s s' DD NL. exact (history_nodup E g DD NL ops s s'). Qed.
Print Assumptions C80_no_configuration_twice.

(** Even if the first rows contain repetitions, the rows a run adds are different from them and from each other. *)
Theorem C80_new_rows_of_a_run : forall M (E : env M) (g : suggester M) fuel s mi mt eps oc s' r,
  e_dedup E = true -> sg_ev g <> ELP -> run_optimization fuel (with_suggester E g) s mi mt eps oc = (s', r) ->
  exists new, s_X s' = s_X s ++ new /\ NoDup new /\ (forall t, In t new -> ~ In t (s_X s)).
Proof. intros M E g fuel s mi mt eps oc s' r DD NL. exact (run_nodup E g DD NL fuel s mi mt eps oc s' r). Qed.
Print Assumptions C80_new_rows_of_a_run.

(** The same for suggestions. *)
Theorem C80_suggestions : forall M (E : env M) (g : suggester M) s oc pending ignored s' B,
  e_dedup E = true -> sg_ev g <> ELP -> suggest_next_locations (with_suggester E g) s oc pending ignored = (s', Some (Ok B)) ->
  NoDup B /\ (forall t, In t B -> ~ In t (s_X s)).
Proof. intros M E g s oc p i s' B DD NL H. exact (proj2 (suggest_new E g DD NL s oc p i s' B H)). Qed.
Print Assumptions C80_suggestions.

(** Local penalization evaluates configurations twice in spite of de_duplication: each batch consists of two equal rows,
    and both batches are the same. *)
Theorem C80_local_penalization_refuted :
  e_dedup E_six = true /\ sound (g_six ELP 2) /\ NoDup (s_X s_six) /\
  exists s', history_caught (with_suggester E_six (g_six ELP 2)) s_six [ORun 10 (LFin (z 2)) LNone (z (-1)) None] s' /\
    s_X s' = [[z 1; z 0]; [z 1; z 1]; [z 1; z 1]; [z 1; z 1]; [z 1; z 1]] /\ ~ NoDup (s_X s').
Proof.
  split; [reflexivity|]. split; [apply g_six_sound|]. split; [repeat constructor; simpl; tauto|]. eexists. split; [|split].
  - eexists _, _. split; [vm_compute; reflexivity|reflexivity].
  - vm_compute. reflexivity.
  - intro N. inversion N as [|x l _ N']. inversion N' as [|x' l' I _]. apply I. left. vm_compute. reflexivity.
Qed.
Print Assumptions C80_local_penalization_refuted.

Example C80_nonvacuous :
  e_dedup E_six = true /\ sg_ev (g_six ERandom 2) <> ELP /\ NoDup (s_X s_six) /\
  exists s', history_caught (with_suggester E_six (g_six ERandom 2)) s_six [ORun 10 (LFin (z 2)) LNone (z (-1)) None] s' /\
    s_X s' = [[z 1; z 0]; [z 1; z 1]; [z 4; z 0]; [z 4; z 1]; [z 9; z 0]].
Proof.
  split; [reflexivity|]. split; [discriminate|]. split; [repeat constructor; simpl; tauto|]. eexists. split.
  - eexists _, _. split; [vm_compute; reflexivity|reflexivity].
  - vm_compute. reflexivity.
Qed.

(** ---------------------------------------------------------------- C81 *)
(** On a space without continuous variables the object never evaluates more rows than there are configurations. *)
Theorem C81_at_most_all_configurations : forall M (E : env M) (g : suggester M) ds cs ops s s',
  design_space ds cs = Ok (e_space E) -> Forall wf_kind (kinds (e_space E)) -> Forall canonical_cats (kinds (e_space E)) ->
  finite (kinds (e_space E)) -> e_dedup E = true -> sg_ev g <> ELP -> sound g -> good_contexts (e_space E) ops ->
  history_caught (with_suggester E g) s ops s' -> NoDup (s_X s) -> Forall (in_domain (kinds (e_space E))) (s_X s) ->
  length (s_X s') <= configurations (kinds (e_space E)).
Proof.
  intros M E g ds cs ops s s' D W CC F DD NL S G H N I. apply finite_bound; auto.
  - exact (history_domain ds cs E g D W CC S ops s s' G H I).
  - exact (history_nodup E g DD NL ops s s' H N).
Qed.
Print Assumptions C81_at_most_all_configurations.

(** A run that returns has done at most as many iterations as there were configurations left. *)
Theorem C81_iterations : forall M (E : env M) (g : suggester M) ds cs fuel s mi mt eps oc s',
  design_space ds cs = Ok (e_space E) -> Forall wf_kind (kinds (e_space E)) -> Forall canonical_cats (kinds (e_space E)) ->
  finite (kinds (e_space E)) -> e_dedup E = true -> sg_ev g <> ELP -> sound g -> good_context (e_space E) oc ->
  run_optimization fuel (with_suggester E g) s mi mt eps oc = (s', Some (Ok tt)) ->
  NoDup (s_X s) -> Forall (in_domain (kinds (e_space E))) (s_X s) ->
  s_num s' <= configurations (kinds (e_space E)) - length (s_X s).
Proof.
  intros M E g ds cs fuel s mi mt eps oc s' D W CC F DD NL S G H N I. pose proof (run_count E g _ _ _ _ _ _ _ H) as C.
  assert (L : length (s_X s') <= configurations (kinds (e_space E))); [|lia].
  apply (C81_at_most_all_configurations M E g ds cs [ORun fuel mi mt eps oc] s s'); auto; [repeat constructor; exact G|].
  eexists _, _. split; [exact H|reflexivity].
Qed.
Print Assumptions C81_iterations.

(** When all configurations with the values of the context are evaluated, no suggestion is returned any more. *)
Theorem C81_exhausted : forall M (E : env M) (g : suggester M) ds cs s oc pending ignored s' r,
  design_space ds cs = Ok (e_space E) -> Forall wf_kind (kinds (e_space E)) -> Forall canonical_cats (kinds (e_space E)) ->
  e_dedup E = true -> sg_ev g <> ELP -> sound g -> good_context (e_space E) oc ->
  (forall t, in_domain (kinds (e_space E)) t -> agrees_with (e_space E) oc t -> In t (s_X s)) ->
  suggest_next_locations (with_suggester E g) s oc pending ignored = (s', r) -> forall B, r <> Some (Ok B).
Proof.
  intros M E g ds cs s oc p i s' r D W CC DD NL S G A H B ->.
  destruct (suggest_domain ds cs E g D W CC S s oc p i s' B G H) as (NE & I & C). destruct (suggest_new E g DD NL s oc p i s' B H) as (_ & _ & N).
  destruct B as [|t B]; [congruence|]. inversion I; inversion C; subst. apply (N t); [left; auto|]. apply A; auto.
Qed.
Print Assumptions C81_exhausted.

(** Six iterations are asked for, five configurations are left: the run evaluates these five and ends with the exception
    for fully explored domains. *)
Example C81_nonvacuous :
  finite (kinds (e_space E_six)) /\ configurations (kinds (e_space E_six)) = 6 /\
  exists s', run_optimization 10 (with_suggester E_six (g_six ESequential 1)) s_six (LFin (z 6)) LNone (z (-1)) None =
      (s', Some (Raise FullyExplored)) /\ length (s_X s') = 6 /\ NoDup (s_X s_six).
Proof.
  split; [repeat constructor|]. split; [reflexivity|]. eexists. split; [vm_compute; reflexivity|]. split; [vm_compute; reflexivity|].
  repeat constructor; simpl; tauto.
Qed.
Example C81_nonvacuous_iterations :
  exists s', run_optimization 10 (with_suggester E_six (g_six EThompson 2)) s_six (LFin (z 2)) LNone (z (-1)) None = (s', Some (Ok tt)) /\
    s_num s' = 2 /\ length (s_X s') = 5.
Proof. eexists. split; [vm_compute; reflexivity|]. split; vm_compute; reflexivity. Qed.

(** ---------------------------------------------------------------- C28, C26: the numbers of points of whole objects *)
(** Without de_duplication an object suggests one batch: one point with the sequential evaluator, batch_size points with the others. *)
Theorem C28_suggestions_of_an_object : forall M (E : env M) (g : suggester M) ds cs s oc pending ignored s' B,
  design_space ds cs = Ok (e_space E) -> Forall wf_kind (kinds (e_space E)) -> Forall canonical_cats (kinds (e_space E)) ->
  sound g -> e_dedup E = false -> batch_settings g -> good_context (e_space E) oc ->
  suggest_next_locations (with_suggester E g) s oc pending ignored = (s', Some (Ok B)) -> length B = batch_of g.
Proof. intros M E g ds cs s oc p i s' B D W CC S DD SZ. exact (suggestion_size E g ds cs D W CC S DD SZ s oc p i s' B). Qed.
Print Assumptions C28_suggestions_of_an_object.

(** A run that returns has evaluated one batch per iteration. *)
Theorem C28_rows_of_a_run : forall M (E : env M) (g : suggester M) ds cs fuel s mi mt eps oc s',
  design_space ds cs = Ok (e_space E) -> Forall wf_kind (kinds (e_space E)) -> Forall canonical_cats (kinds (e_space E)) ->
  sound g -> e_dedup E = false -> batch_settings g -> good_context (e_space E) oc ->
  run_optimization fuel (with_suggester E g) s mi mt eps oc = (s', Some (Ok tt)) -> length (s_X s') = length (s_X s) + s_num s' * batch_of g.
Proof. intros M E g ds cs fuel s mi mt eps oc s' D W CC S DD SZ. exact (run_size E g ds cs D W CC S DD SZ fuel s mi mt eps oc s'). Qed.
Print Assumptions C28_rows_of_a_run.

(** With de_duplication it suggests at most as many, for batch sizes of 2 and more (C26_size_one_overshoots_refuted for 1). *)
Theorem C26_suggestions_of_an_object : forall M (E : env M) (g : suggester M) s oc pending ignored s' B,
  e_dedup E = true -> 2 <= sg_size g -> suggest_next_locations (with_suggester E g) s oc pending ignored = (s', Some (Ok B)) -> length B <= batch_of g.
Proof. intros M E g s oc p i s' B. exact (dedup_size E g s oc p i s' B). Qed.
Print Assumptions C26_suggestions_of_an_object.

Definition E_free : env nat :=
  mk_env nat (the_space ds_six None) false 1 None (e_obj E_six) (e_batch E_six) (e_update E_six) (e_params E_six) nat2q (fun x => x) (fun _ _ => None).
Example C28_nonvacuous_objects :
  e_dedup E_free = false /\ sound (g_six EThompson 3) /\ batch_settings (g_six EThompson 3) /\ good_context (e_space E_free) None /\
  (forall ev, In ev [ERandom; ELP; EThompson] -> exists s', run_optimization 10 (with_suggester E_free (g_six ev 3)) s_six (LFin (z 2)) LNone (z (-1)) None = (s', Some (Ok tt)) /\
    s_num s' = 2 /\ length (s_X s') = 7) /\
  exists s', run_optimization 10 (with_suggester E_free (g_six ESequential 3)) s_six (LFin (z 2)) LNone (z (-1)) None = (s', Some (Ok tt)) /\
    s_num s' = 2 /\ length (s_X s') = 3.
Proof.
  split; [reflexivity|]. split; [apply g_six_sound|]. split.
  - split; [simpl; lia|]. split; [simpl; lia|]. split; [|intros m V s [= <-]; apply map_length].
    intro m. exact isort_ok.
  - split; [exact (proj1 (proj2 (proj2 (proj2 six_good))))|]. split; [|eexists; split; [vm_compute; reflexivity|split; reflexivity]].
    intros ev [<-|[<-|[<-|[]]]]; eexists; (split; [vm_compute; reflexivity|split; reflexivity]).
Qed.
