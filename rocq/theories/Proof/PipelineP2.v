(** How many points a whole object suggests at a time, and how many a run evaluates. *)
From Coq Require Import String List ZArith QArith Qcanon Bool Lia.
From Verif.Model Require Import Py Space Design Optim Objective BO Pipeline.
From Verif.Spec Require Import SpaceSpec DesignSpec ContextSpec SuggestSpec BOSpec PipelineSpec.
From Verif.Proof Require Import Num SuggestP SuggestMain BOP BOLoop BOMain PipelineP.
Import ListNotations.
Local Open Scope nat_scope.

Section Size.
  Context {M : Type}.
  Variables (E0 : env M) (g : suggester M) (ds : list descr) (cs : option (list constr)).
  Notation E := (with_suggester E0 g).
  Notation sp := (e_space E0).
  Hypothesis D : design_space ds cs = Ok sp.
  Hypothesis W : Forall wf_kind (kinds sp).
  Hypothesis CC : Forall canonical_cats (kinds sp).
  Hypothesis S : sound g.
  Hypothesis DD : e_dedup E0 = false.
  Hypothesis SZ : batch_settings g.

  Lemma batch_size s p i s' b : good_context sp (s_ctx s) -> compute_next_evaluations E s p i = (s', Some (Ok b)) -> length b = batch_of g.
  Proof.
    intros G H. apply cne_batch in H as (cm & B & HC & HB & HZ). rewrite DD in HB. pose proof (batch_nonempty sp g _ _ _ _ HB) as NE.
    apply zip_forms in HZ; auto. replace (length b) with (length B) by (clear -HZ; induction HZ; simpl; congruence).
    destruct SZ as (S1 & S2 & S3 & S4). destruct S as (SG & _). unfold compute_batch, snd in HB. cbn [fst snd] in HB. unfold batch_of. destruct (sg_ev g) eqn:EV.
    1, 2, 4: destruct (sizes_main ds cs sp (s_ctx s) cm (sg_acq sp g (s_model s) None cm) (sg_size g) (sg_ns g) (sg_ns' g) (sg_gen g (s_model s) 0)
                (sg_gen g (s_model s) 1) (sg_loc g (s_model s) 0) (sg_ts g (s_model s)) D W CC G HC eq_refl eq_refl (SG _ _) (S3 _) S1 S2 (S4 _)) as (A1 & A2 & A3); auto.
    unfold lp_compute_batch in HB. destruct (lp_batch _ _ _) as [[st' calls] r] eqn:L. subst r. apply lp_batch_spec in L as (L & _). rewrite L. lia.
  Qed.
  Lemma suggestion_size s oc p i s' b : good_context sp oc -> suggest_next_locations E s oc p i = (s', Some (Ok b)) -> length b = batch_of g.
  Proof.
    intros G H. unfold suggest_next_locations in H. destruct (update_model E _) as [s1 [[]|e]] eqn:UM; [|discriminate].
    pose proof (update_model_spec E _ s1 _ UM) as (m & q & U & -> & _ & _). eapply batch_size; [|exact H]. exact G.
  Qed.
  Lemma steps_size o mi mt eps z n s s' : steps E o mi mt eps z n s s' -> good_context sp (s_ctx s) ->
    s_num s' = n + s_num s /\ length (s_X s') = length (s_X s) + n * batch_of g.
  Proof.
    intros H. induction H as [s|n s s1 s2 IT H IH]; intro G; [simpl; lia|].
    apply iter_go in IT as (m & p & U & s1' & b & ys & cs' & h & t & c & _ & _ & -> & _ & _ & _ & _ & m2 & CN & ->). cbn [s_num s_X s_ctx] in IH.
    destruct (IH G) as [-> ->]. apply batch_size in CN; [|exact G]. rewrite app_length, CN. lia.
  Qed.
  Lemma run_size fuel s mi mt eps oc s' : good_context sp oc -> run_optimization fuel E s mi mt eps oc = (s', Some (Ok tt)) ->
    length (s_X s') = length (s_X s) + s_num s' * batch_of g.
  Proof.
    intros G H. destruct (e_obj E) as [o|] eqn:O; [|unfold run_optimization in H; rewrite O in H; discriminate]. apply (run_cases _ _ _ _ _ _ _ _ _ _ O) in H.
    destruct H as (s0 & r0 & I & [(N & _ & <-)|(-> & n & s1 & s2 & r1 & ST & IT & [(N & _ & <-)|(-> & q & CR & [= <-])])]); try now contradiction N.
    apply initial_rows in I as (IX & IC). apply steps_size in ST; [|change (good_context sp (s_ctx s0)); rewrite IC; exact G]. destruct ST as [SN SX].
    destruct IT as [(_ & IT)|(_ & _ & ?)]; [|discriminate]. apply iter_stop_ok in IT as (EX & _ & _ & EN & _). apply compute_results_spec in CR as [CR _].
    rewrite CR. sproj. rewrite EX, EN, SX, SN. cbn [started s_X s_num set_world set_ynew set_sugg set_num set_cum]. unfold started. sproj. rewrite IX. sproj. lia.
  Qed.
End Size.

Lemma dedup_size {M} (E0 : env M) (g : suggester M) s oc p i s' b : e_dedup E0 = true -> 2 <= sg_size g ->
  suggest_next_locations (with_suggester E0 g) s oc p i = (s', Some (Ok b)) -> length b <= batch_of g.
Proof.
  intros DD S2 H. unfold suggest_next_locations in H. destruct (update_model _ _) as [s1 [[]|e]] eqn:UM; [|discriminate].
  apply cne_batch in H as (cm & B & HC & HB & HZ). rewrite DD in HB. pose proof (batch_nonempty (e_space E0) g _ _ _ _ HB) as NE.
  apply zip_forms in HZ; auto. replace (length b) with (length B) by (clear -HZ; induction HZ; simpl; congruence).
  unfold compute_batch in HB. cbn [snd] in HB. unfold batch_of. destruct (sg_ev g) eqn:EV.
  - unfold sequential_batch in HB. apply rbind_ok in HB as ([x fx] & _ & HB). injection HB as <-. simpl. lia.
  - apply (random_dedup (e_space E0)) in HB; [|reflexivity|reflexivity]. destruct HB as (_ & _ & _ & L & _). auto.
  - unfold lp_compute_batch in HB. destruct (lp_batch _ _ _) as [[st' calls] r] eqn:L. cbn [snd] in HB. subst r. apply lp_batch_spec in L as (L & _). lia.
  - apply (thompson_dedup (e_space E0)) in HB; [|reflexivity|reflexivity]. destruct HB as (_ & _ & _ & L). apply L. lia.
Qed.
