(** Whole runs with the real evaluators. *)
From Coq Require Import String List ZArith QArith Qcanon Bool Lia.
From Verif.Model Require Import Py Space Design Optim Objective BO Pipeline.
From Verif.Spec Require Import SpaceSpec DesignSpec ContextSpec SuggestSpec BOSpec PipelineSpec.
From Verif.Proof Require Import Num Dec SpaceP RoundP ConstructP SpaceMain DesignP DesignMain ContextP ContextMain AnchorP SuggestP SuggestMain ConstraintMain BOP BOLoop.
Import ListNotations.
Local Open Scope nat_scope.

(** ---- rows of X over a history ---- *)
Section Rows.
Context {M : Type}.
Variable E : env M.

(** [P] is kept by every batch that is suggested without pending or ignored rows under the context [oc]. *)
Definition kept (P : mat -> Prop) (oc : option context) : Prop :=
  forall s s' b, s_ctx s = oc -> compute_next_evaluations E s None None = (s', Some (Ok b)) -> P (s_X s) -> P (s_X s ++ b).

Lemma iter_rows P o mi mt eps z s s' r : kept P (s_ctx s) -> iter E o mi mt eps z s = (s', r) -> P (s_X s) -> P (s_X s') /\ s_ctx s' = s_ctx s.
Proof.
  intros K H HP. unfold iter in H. destruct (time_left mt (s_cum s)); [|injection H as <- <-; auto].
  destruct (update_model E s) as [s1 [[]|e]] eqn:UM.
  2:{ pose proof (update_model_spec E s s1 _ UM) as (m & p & U & -> & _ & _). destruct e; injection H as <- <-; auto. }
  pose proof (update_model_spec E s s1 _ UM) as (m & p & U & -> & _ & _).
  destruct (_ || _); [injection H as <- <-; auto|].
  destruct (compute_next_evaluations E _ None None) as [s2 q] eqn:CN.
  pose proof (cne_spec _ _ _ _ _ _ CN) as (m2 & ->).
  destruct q as [[b|e]|]; [|injection H as <- <-; auto|injection H as <- <-; auto].
  pose proof (K (with_model s m p U) _ _ eq_refl CN HP) as HP'.
  cbn zeta in H. destruct (vstack _ b) as [X'|e] eqn:V; [|injection H as <- <-; auto]. apply vstack_app in V. subst X'.
  unfold evaluate_objective in H.
  destruct (evaluate _ _ _ _ _) as [[h t] [[[ys cs]|e]|]]; cbv beta iota zeta in H; [|injection H as <- <-; auto|injection H as <- <-; auto].
  destruct (update_cost_model _ _ _ _ _) as [c [[]|e]]; cbv beta iota zeta in H; injection H as <- <-; auto.
Qed.

Lemma loop_rows P o mi mt eps z : forall fuel s s' r, kept P (s_ctx s) -> loop fuel E o mi mt eps z s = (s', r) -> P (s_X s) -> P (s_X s').
Proof.
  induction fuel as [|fuel IH]; intros s s' r K H HP.
  - injection H as <- <-. auto.
  - rewrite loop_iter in H. destruct (iter E o mi mt eps z s) as [s1 [r1|]] eqn:I.
    + injection H as <- <-. eapply iter_rows in I; eauto. tauto.
    + eapply iter_rows in I; eauto. destruct I as (HP1 & C1). apply (IH s1 s' r); auto. now rewrite C1.
Qed.

Lemma initial_rows o s s' r : initial_evaluation E o s = (s', r) -> s_X s' = s_X s /\ s_ctx s' = s_ctx s.
Proof.
  unfold initial_evaluation. destruct (s_Y s); [intros [= <- <-]; auto|].
  destruct (evaluate _ _ _ _ _) as [[h t] [[[ys cs]|e]|]]; [|intros [= <- <-]; auto|intros [= <- <-]; auto].
  cbv zeta. destruct (is_time_cost _); [|intros [= <- <-]; auto].
  destruct (update_cost_model _ _ _ _ _) as [c [[]|e]]; intros [= <- <-]; auto.
Qed.

Lemma results_rows (s s' : st M) r : compute_results s = (s', r) -> s_X s' = s_X s.
Proof.
  unfold compute_results. destruct (s_Y s); [|intros [= <- <-]; auto].
  destruct (argmin _); [|intros [= <- <-]; auto].
  repeat match goal with |- context [match ?x with _ => _ end] => destruct x end; intros [= <- <-]; auto.
Qed.

Lemma run_rows P fuel s mi mt eps oc s' r : kept P oc -> run_optimization fuel E s mi mt eps oc = (s', r) -> P (s_X s) -> P (s_X s').
Proof.
  intros K H HP. unfold run_optimization in H. destruct (e_obj E) as [o|]; [|injection H as <- <-; auto].
  destruct (initial_evaluation E o _) as [s1 r1] eqn:I. pose proof (initial_rows _ _ _ _ I) as (X1 & C1).
  cbn [s_X s_ctx set_ctx set_params] in X1, C1.
  destruct r1 as [[[]|e]|]; [|injection H as <- <-; now rewrite X1|injection H as <- <-; now rewrite X1].
  cbv zeta in H. destruct (loop fuel E o _ _ _ _ _) as [s2 r2] eqn:L.
  assert (HP2 : P (s_X s2)).
  { eapply loop_rows; [|exact L|].
    - cbn [s_ctx set_ynew set_sugg set_num set_cum set_world]. now rewrite C1.
    - cbn [s_X set_ynew set_sugg set_num set_cum set_world]. now rewrite X1. }
  destruct r2 as [[[]|e]|]; [|injection H as <- <-; auto|injection H as <- <-; auto].
  destruct (compute_results s2) as [s3 r3] eqn:R. apply results_rows in R. injection H as <- <-. now rewrite R.
Qed.

Lemma suggest_rows s oc p i s' r : suggest_next_locations E s oc p i = (s', r) -> s_X s' = s_X s.
Proof.
  unfold suggest_next_locations. destruct (update_model E _) as [s1 [[]|e]] eqn:UM;
    pose proof (update_model_spec E _ s1 _ UM) as (m & q & U & -> & _ & _); [|intros [= <- <-]; reflexivity].
  intros CN. pose proof (cne_spec _ _ _ _ _ _ CN) as (m2 & ->). reflexivity.
Qed.

Lemma step_rows P s o s' r : kept P (context_of o) -> step E s o = (s', r) -> P (s_X s) -> P (s_X s').
Proof.
  intros K H HP. destruct o as [fuel mi mt eps oc|oc p i]; cbn [step] in H.
  - eapply run_rows; eauto.
  - destruct (suggest_next_locations E s oc p i) as [s1 r1] eqn:S1. injection H as <- _. apply suggest_rows in S1. now rewrite S1.
Qed.

Lemma history_rows P : forall ops s s', Forall (fun o => kept P (context_of o)) ops -> history_caught E s ops s' -> P (s_X s) -> P (s_X s').
Proof.
  induction ops as [|o ops IH]; intros s s' K H HP; cbn [history_caught] in H.
  - now subst.
  - destruct H as (s1 & r & S1 & H). inversion K; subst. eapply IH; eauto. eapply step_rows; eauto.
Qed.
End Rows.

(** ---- from model rows to user rows ---- *)
Lemma zip_forms sp B Z : B <> [] -> zip_inputs sp B = Ok Z -> Forall2 (user_form sp) B Z.
Proof.
  intros NE H. unfold user_form, zip_inputs in *. destruct (has_bandit sp).
  - rewrite atleast_2d_ne in H by auto. injection H as <-. clear NE. induction B; constructor; auto.
  - apply bind_ok in H as (Z' & HZ & H). apply mapM_ok_Forall2 in HZ. assert (Z' <> []) by (inversion HZ; subst; congruence).
    rewrite atleast_2d_ne in H by auto. injection H as <-. clear -HZ. induction HZ as [|x t B Z Hx HZ IH]; constructor; auto.
    simpl. rewrite Hx. reflexivity.
Qed.

Lemma valid_blocks_values ks : bandit_free ks -> forall xs bs, length bs = length xs -> Forall2 enc_block ks (combine xs bs) ->
  design_point ks (concat bs) -> Forall2 valid_value ks xs.
Proof.
  induction ks as [|k ks IH]; intros BF xs bs Lb F H.
  - inversion F as [Q|]; destruct xs as [|x xs]; [constructor|]. destruct bs; discriminate.
  - inversion F as [|? p ? ps (P1 & P2) P3 Q1 Q2]; subst. destruct xs as [|x xs], bs as [|b bs]; try discriminate. cbn [combine] in Q2. injection Q2 as -> ->.
    cbn [fst snd] in *. inversion BF as [|? ? B1 B2]; subst. unfold design_point in H. cbn [concat] in H.
    inversion H as [|? ? b' r' V1 V2 Q3 Q4]; subst.
    assert (Lb' : length b' = length b).
    { rewrite P2. destruct k; try discriminate; simpl in *; [destruct V1 as (? & -> & _)|destruct V1 as (? & -> & _)|destruct V1 as (? & V1 & _)]; auto. }
    destruct (app_split _ _ _ _ Lb' Q4) as (Q5 & Q6). subst b' r'. constructor.
    + clear -P1 V1 B1. destruct k; try discriminate; simpl in *.
      * destruct V1 as (y & -> & V). injection P1 as <-. auto.
      * destruct V1 as (y & -> & V). injection P1 as <-. auto.
      * destruct P1 as (i & -> & O). exists i. split; auto. destruct O as (_ & L & _). exact L.
    + apply (IH B2 xs bs); auto.
Qed.

Lemma value_rows ks xs : bandit_free ks -> Forall2 valid_value ks xs -> in_domain ks xs.
Proof.
  intros B H. induction H as [|k x ks xs V H IH]; [constructor|]. inversion B; subst. apply (blocks_cons _ k ks [x] xs); [|apply IH; auto].
  destruct k; try discriminate; simpl in *; eauto.
Qed.

Section Good.
  Variables (ds : list descr) (cs : option (list constr)) (sp : space).
  Hypothesis D : design_space ds cs = Ok sp.
  Hypothesis W : Forall wf_kind (kinds sp).

  Lemma point_decodes x t : has_bandit sp = false -> design_point (kinds sp) x -> user_form sp x t ->
    model_to_objective sp x = Ok t.
  Proof.
    intros HB DP Ut. unfold user_form, zip_inputs in Ut. rewrite HB in Ut. simpl in Ut. destruct (model_to_objective sp x); [|discriminate]. simpl in Ut. congruence.
  Qed.

  Lemma point_in_domain x t : design_point (kinds sp) x -> user_form sp x t -> in_domain (kinds sp) t.
  Proof.
    intros DP Ut. pose proof (design_space_facts _ _ _ D) as F. destruct (has_bandit sp) eqn:HB.
    - unfold user_form, zip_inputs in Ut. rewrite HB in Ut. cbn in Ut. injection Ut as <-.
      destruct (sf_b _ F HB) as (AB & _). clear -DP AB. unfold in_domain, design_point in *.
      induction DP as [|k ks b r Hb H IH]; [constructor|]. inversion AB; subst. constructor; [|apply IH; auto]. destruct k; try discriminate. exact Hb.
    - pose proof (sf_nb _ F HB) as B. pose proof (point_decodes x t HB DP Ut) as T.
      destruct (row_roundtrip2 sp x F (design_point_encoding _ _ B DP)) as (t' & E & T' & R). rewrite T in T'. injection T' as <-.
      destruct (objective_blocks _ (sf_ok _ F) [] t E) as (bs & Lb & Fb & Eb). unfold objective_to_model in R. simpl in Eb. rewrite R in Eb. injection Eb as ->.
      apply value_rows; auto. eapply valid_blocks_values; eauto.
  Qed.

  Lemma context_in_row oc x t : good_context sp oc -> good_row sp oc x -> user_form sp x t -> agrees_with sp oc t.
  Proof.
    intros G (DP & C) Ut c n y i v -> Hc Hv N. destruct G as (B & _).
    pose proof (design_space_facts _ _ _ D) as F. pose proof (bandit_free_has _ F B) as HB. pose proof (lay_space _ _ _ D B) as L.
    assert (Lx : length x = model_dimensionality sp).
    { rewrite (design_point_length _ _ W DP). symmetry. apply model_dim_width. auto. }
    pose proof (decode_holds _ _ _ L (design_point_encoding _ _ B DP) Lx (point_decodes x t HB DP Ut)) as H.
    assert (exists y', nth_error t i = Some y' /\ holds x v y') as (y' & T & Hy).
    { clear -H Hv. revert i Hv. induction H as [|a b l l' R H IH]; intros [|i] Hv; try discriminate; simpl in *; [injection Hv as <-; eauto|auto]. }
    rewrite T. f_equal. eapply holds_inj; [exact Hy|]. apply (C n y v); auto. eapply nth_error_In; eauto.
  Qed.
End Good.

(** ---- batches of the real evaluators ---- *)
Section Batch.
  Context {M : Type}.
  Variables (ds : list descr) (cs : option (list constr)) (sp : space) (g : suggester M).
  Hypothesis D : design_space ds cs = Ok sp.
  Hypothesis W : Forall wf_kind (kinds sp).
  Hypothesis CC : Forall canonical_cats (kinds sp).
  Hypothesis S : sound g.

  Lemma batch_good m odm oc cm B : good_context sp oc -> context_manager sp oc = Ok cm ->
    snd (compute_batch sp g m odm cm) = Some (Ok B) -> Forall (good_row sp oc) B.
  Proof.
    intros G E H. destruct S as (GG & N & N'). unfold compute_batch in H. cbn [snd] in H. destruct (sg_ev g).
    - destruct (sequential_good ds cs sp oc cm D W CC G E (sg_acq sp g m None cm) _ _ _ _ _ eq_refl eq_refl (GG m 0) N H) as (x & -> & R & _). constructor; auto.
    - eapply (random_good ds cs sp oc cm D W CC G E); [..|exact H]; auto.
    - destruct (lp_compute_batch _ _ _ _ _ _ _ _) as [[st' calls] r] eqn:L. cbn [snd] in H. subst r.
      eapply (lp_good ds cs sp oc cm); [..|exact L]; auto.
    - eapply (thompson_good ds cs sp oc cm D W CC G E); [..|exact H]; auto.
  Qed.

  Lemma batch_nonempty m odm cm B : snd (compute_batch sp g m odm cm) = Some (Ok B) -> B <> [].
  Proof.
    intros H. unfold compute_batch in H. cbn [snd] in H. destruct (sg_ev g).
    - unfold sequential_batch in H. apply rbind_ok in H as ((x & fx) & Hx & H). injection H as <-. discriminate.
    - destruct odm as [dm|].
      + unfold random_batch in H. apply rbind_ok in H as (A & HA & H). apply rbind_ok in H as ((p & fp) & Hp & H). injection H as H.
        unfold dedup_batch in H. apply bind_ok in H as ((b & s) & Hs & H). apply bind_ok in H as (b' & Hb & H). destruct b'; [discriminate|congruence].
      + apply random_inv in H as (p & fp & A & HP & HA & ->). discriminate.
    - destruct (lp_compute_batch _ _ _ _ _ _ _ _) as [[st' calls] r] eqn:L. cbn [snd] in H. subst r. unfold lp_compute_batch in L.
      apply lp_batch_spec in L as (L & _). intros ->; change (0 = Nat.max 1 (sg_size g)) in L; lia.
    - unfold thompson_batch in H. apply rbind_ok in H as (A & HA & H). injection H as H. destruct odm as [dm|].
      + unfold dedup_batch in H. apply bind_ok in H as ((b & s) & Hs & H). apply bind_ok in H as (b' & Hb & H). destruct b'; [discriminate|congruence].
      + apply bind_ok in H as (b' & Hb & H). destruct b'; [discriminate|congruence].
  Qed.

  Lemma batch_new m dm cm B : sg_ev g <> ELP -> dm_space dm = sp -> snd (compute_batch sp g m (Some dm) cm) = Some (Ok B) ->
    B <> [] /\ distinct_rows sp B /\ Forall (unknown (Some dm)) B.
  Proof.
    intros NL Ed H. unfold compute_batch in H. cbn [snd] in H. destruct (sg_ev g); [| |congruence|].
    - unfold sequential_batch in H. apply rbind_ok in H as ((x & fx) & Hx & H). injection H as <-.
      apply acq_unknown in Hx. split; [discriminate|]. split; [|constructor; auto]. destruct Hx as (t & U & _). rewrite Ed in U.
      exists [t]. split; [constructor; auto|]. repeat constructor; auto.
    - apply (random_dedup sp) in H; auto. tauto.
    - apply (thompson_dedup sp) in H; auto. tauto.
  Qed.
End Batch.

(** ---- whole histories ---- *)
Section Whole.
  Context {M : Type}.
  Variables (ds : list descr) (cs : option (list constr)) (E0 : env M) (g : suggester M).
  Notation sp := (e_space E0).
  Notation E := (with_suggester E0 g).
  Hypothesis D : design_space ds cs = Ok sp.

  Lemma cne_batch s p i s' b : compute_next_evaluations E s p i = (s', Some (Ok b)) ->
    exists cm B, context_manager sp (s_ctx s) = Ok cm /\
      snd (compute_batch sp g (s_model s) (if e_dedup E0 then Some (duplicate_manager sp (s_X s) p i) else None) cm) = Some (Ok B) /\
      zip_inputs sp B = Ok b.
  Proof.
    unfold compute_next_evaluations. cbn [e_space with_suggester e_dedup e_batch]. destruct (context_manager sp (s_ctx s)) as [cm|e]; [|discriminate].
    destruct (compute_batch _ _ _ _ _) as [m r] eqn:CB. intros [= _ H]. apply rbind_ok in H as (B & -> & H). injection H as H.
    exists cm, B. rewrite CB. auto.
  Qed.

  Section Domain.
  Hypothesis W : Forall wf_kind (kinds sp).
  Hypothesis CC : Forall canonical_cats (kinds sp).
  Hypothesis S : sound g.

  Lemma suggested_rows s p i s' b : good_context sp (s_ctx s) -> compute_next_evaluations E s p i = (s', Some (Ok b)) ->
    b <> [] /\ Forall (in_domain (kinds sp)) b /\ Forall (agrees_with sp (s_ctx s)) b.
  Proof.
    intros G H. apply cne_batch in H as (cm & B & HC & HB & HZ).
    pose proof (batch_good ds cs sp g D W CC S _ _ _ _ _ G HC HB) as GB. pose proof (batch_nonempty sp g _ _ _ _ HB) as NE.
    apply zip_forms in HZ; auto. split; [inversion HZ; subst; congruence|]. clear HB NE.
    induction HZ as [|x t B b U HZ IH]; [auto|]. inversion GB as [|? ? G1 G2]; subst. destruct (IH G2) as (I1 & I2). split; constructor; auto.
    - eapply point_in_domain; eauto. apply G1.
    - eapply context_in_row; eauto.
  Qed.

  Lemma domain_kept oc : good_context sp oc -> kept E (Forall (in_domain (kinds sp))) oc.
  Proof. intros G s s' b C H F. apply Forall_app. split; auto. rewrite <- C in G. eapply suggested_rows; eauto. Qed.

  Lemma history_domain ops s s' : good_contexts sp ops -> history_caught E s ops s' ->
    Forall (in_domain (kinds sp)) (s_X s) -> Forall (in_domain (kinds sp)) (s_X s').
  Proof.
    intros G H. apply (history_rows E (Forall (in_domain (kinds sp))) ops); auto. eapply Forall_impl; [|exact G]. intros o. apply domain_kept.
  Qed.

  Lemma run_context fuel s mi mt eps oc s' r : good_context sp oc -> run_optimization fuel E s mi mt eps oc = (s', r) ->
    exists new, s_X s' = s_X s ++ new /\ Forall (in_domain (kinds sp)) new /\ Forall (agrees_with sp oc) new.
  Proof.
    intros G H. eapply (run_rows E (fun X => exists new, X = s_X s ++ new /\ Forall (in_domain (kinds sp)) new /\ Forall (agrees_with sp oc) new)); eauto.
    - intros s1 s2 b C CN (new & X1 & F1 & F2). exists (new ++ b). rewrite X1, app_assoc. split; auto. rewrite <- C in G.
      destruct (suggested_rows _ _ _ _ _ G CN) as (_ & G1 & G2). rewrite C in G2. split; apply Forall_app; auto.
    - exists []. rewrite app_nil_r. auto.
  Qed.

  Lemma suggest_domain s oc p i s' b : good_context sp oc -> suggest_next_locations E s oc p i = (s', Some (Ok b)) ->
    b <> [] /\ Forall (in_domain (kinds sp)) b /\ Forall (agrees_with sp oc) b.
  Proof.
    intros G H. unfold suggest_next_locations in H. destruct (update_model E _) as [s1 [[]|e]] eqn:UM; [|discriminate].
    pose proof (update_model_spec E _ s1 _ UM) as (m & q & U & -> & _ & _). exact (suggested_rows (with_model (set_ctx (set_num (set_params s None) 0) oc) m q U) p i s' b G H).
  Qed.
  End Domain.

  Section Dedup.
  Hypothesis DD : e_dedup E0 = true.
  Hypothesis NL : sg_ev g <> ELP.

  Lemma suggested_unknown s p i s' b : compute_next_evaluations E s p i = (s', Some (Ok b)) ->
    b <> [] /\ NoDup b /\ (forall t, In t b -> ~ In t (dm_points (duplicate_manager sp (s_X s) p i))).
  Proof.
    intros H. apply cne_batch in H as (cm & B & HC & HB & HZ). rewrite DD in HB.
    apply batch_new in HB as (NE & (ts & F & ND) & U); auto. apply zip_forms in HZ; auto.
    assert (b = ts) as ->.
    { clear -F HZ. revert b HZ. induction F as [|x t B ts H F IH]; intros b HZ; inversion HZ; subst; auto. f_equal; auto. eapply user_form_unique; eauto. }
    split; [inversion HZ; subst; congruence|]. split; auto. clear -HZ U.
    induction HZ as [|x t B ts H HZ IH]; [intros ? []|]. inversion U as [|? ? (t' & U1 & U2) U3]; subst. intros u [<-|Hu]; [|apply IH; auto].
    assert (t' = t) as -> by (eapply user_form_unique; eauto). exact U2.
  Qed.
  Lemma suggested_new s p i s' b : compute_next_evaluations E s p i = (s', Some (Ok b)) ->
    b <> [] /\ NoDup b /\ (forall t, In t b -> ~ In t (s_X s)).
  Proof.
    intros H. apply suggested_unknown in H as (A & B & U). split; auto. split; auto. intros t I J. apply (U t I). apply dm_points_spec. auto.
  Qed.

  Lemma nodup_kept oc : kept E (@NoDup vec) oc.
  Proof.
    intros s s' b C H N. apply suggested_new in H as (_ & N1 & N2). apply NoDup_app2; auto. intros x I1 I2. exact (N2 x I2 I1).
  Qed.
  Lemma history_nodup ops s s' : history_caught E s ops s' -> NoDup (s_X s) -> NoDup (s_X s').
  Proof. intros H. apply (history_rows E (@NoDup vec) ops); auto. apply Forall_forall. intros. apply nodup_kept. Qed.
  Lemma run_nodup fuel s mi mt eps oc s' r : run_optimization fuel E s mi mt eps oc = (s', r) ->
    exists new, s_X s' = s_X s ++ new /\ NoDup new /\ (forall t, In t new -> ~ In t (s_X s)).
  Proof.
    intros H. eapply (run_rows E (fun X => exists new, X = s_X s ++ new /\ NoDup new /\ (forall t, In t new -> ~ In t (s_X s)))); eauto.
    - intros s1 s2 b _ CN (new & X1 & N1 & N2). apply suggested_new in CN as (_ & N3 & N4). rewrite X1 in *.
      exists (new ++ b). rewrite app_assoc. split; auto. split.
      + apply NoDup_app2; auto. intros x I1 I2. apply (N4 x I2). apply in_or_app. auto.
      + intros t I. apply in_app_or in I as [I|I]; auto. intro J. apply (N4 t I). apply in_or_app. auto.
    - exists []. rewrite app_nil_r. split; auto. split; [constructor|intros ? []].
  Qed.
  Lemma suggest_new s oc p i s' b : suggest_next_locations E s oc p i = (s', Some (Ok b)) ->
    b <> [] /\ NoDup b /\ (forall t, In t b -> ~ In t (s_X s)).
  Proof.
    intros H. unfold suggest_next_locations in H. destruct (update_model E _) as [s1 [[]|e]] eqn:UM; [|discriminate].
    pose proof (update_model_spec E _ s1 _ UM) as (m & q & U & -> & _ & _). apply (suggested_new _ _ _ _ _ H).
  Qed.
  Lemma suggest_unknown s oc p i s' b : suggest_next_locations E s oc p i = (s', Some (Ok b)) ->
    b <> [] /\ NoDup b /\ (forall t, In t b -> ~ In t (dm_points (duplicate_manager (e_space E0) (s_X s) p i))).
  Proof.
    intros H. unfold suggest_next_locations in H. destruct (update_model E _) as [s1 [[]|e]] eqn:UM; [|discriminate].
    pose proof (update_model_spec E _ s1 _ UM) as (m & q & U & -> & _ & _). apply (suggested_unknown _ _ _ _ _ H).
  Qed.
  End Dedup.
End Whole.

(** ---- finitely many configurations ---- *)
Definition values_list (k : kind) : mat :=
  match k with
  | KCont _ _ => []
  | KDisc vals => map (fun x => [x]) vals
  | KCat cats => map (fun n => [nat2q n]) (seq 0 (length cats))
  | KBandit _ arms => arms
  end.
Fixpoint all_rows (ks : list kind) : mat :=
  match ks with
  | [] => [[]]
  | k :: t => flat_map (fun b => map (fun r => b ++ r) (all_rows t)) (values_list k)
  end.
Lemma flat_map_length_const {A B} (f : A -> list B) n l : (forall a, length (f a) = n) -> length (flat_map f l) = length l * n.
Proof. intro H. induction l as [|a l IH]; [reflexivity|]. cbn [flat_map length]. rewrite app_length, H, IH. lia. Qed.
Lemma all_rows_length ks : length (all_rows ks) = configurations ks.
Proof.
  unfold configurations. induction ks as [|k ks IH]; [reflexivity|]. cbn [all_rows map fold_right]. rewrite <- IH.
  replace (choices k) with (length (values_list k)) by (destruct k; simpl; rewrite ?map_length, ?seq_length; auto).
  apply flat_map_length_const. intro b. apply map_length.
Qed.
Lemma in_domain_listed ks t : finite ks -> in_domain ks t -> In t (all_rows ks).
Proof.
  intros F H. unfold in_domain in H. induction H as [|k ks b r V H IH]; [left; auto|]. inversion F as [|? ? F1 F2]; subst.
  cbn [all_rows]. apply in_flat_map. exists b. split; [|apply in_map; auto]. destruct k; [destruct F1| | |]; cbn [values_list]; simpl in V.
  - destruct V as (x & -> & V). apply (in_map (fun x => [x])); auto.
  - exact V.
  - destruct V as (x & -> & n & N & ->). apply (in_map (fun n => [nat2q n])). apply in_seq. lia.
Qed.
Lemma finite_bound ks X : finite ks -> Forall (in_domain ks) X -> NoDup X -> length X <= configurations ks.
Proof.
  intros F H N. rewrite <- all_rows_length. apply NoDup_incl_length; auto. intros t I. rewrite Forall_forall in H. apply in_domain_listed; auto.
Qed.

(** ---- iterations and rows ---- *)
Section Count.
  Context {M : Type}.
  Variables (E0 : env M) (g : suggester M).
  Notation E := (with_suggester E0 g).

  Lemma iter_count o mi mt eps z s s' r : iter E o mi mt eps z s = (s', r) -> s_num s' + length (s_X s) <= length (s_X s') + s_num s.
  Proof.
    intros H. destruct r as [r|].
    - apply iter_stop in H as [(_ & -> & _)|[(e & UM & _)|[(UM & _)|[(s1 & s2 & q & _ & _ & _ & HX & _ & _ & HN & _)|(s1 & s2 & b & h & t & q & _ & _ & _ & _ & HX & _ & _ & _ & HN & _)]]]].
      + lia.
      + pose proof (update_model_spec E s s' _ UM) as (m & p & U & -> & _ & _). cbn. lia.
      + pose proof (update_model_spec E s s' _ UM) as (m & p & U & -> & _ & _). cbn. lia.
      + rewrite HX, HN. lia.
      + rewrite HX, HN, app_length. lia.
    - apply iter_go in H as (m & p & U & s1 & b & ys & cs & h & t & c & _ & _ & -> & _ & _ & _ & _ & m2 & CN & ->). cbn [s_num s_X].
      apply cne_batch in CN as (cm & B & _ & HB & HZ). pose proof (batch_nonempty (e_space E0) g _ _ _ _ HB) as NE.
      apply zip_forms in HZ; auto. rewrite app_length. assert (1 <= length b) by (inversion HZ; subst; [congruence|simpl; lia]). lia.
  Qed.
  Lemma loop_count o mi mt eps z : forall fuel s s' r, loop fuel E o mi mt eps z s = (s', r) -> s_num s' + length (s_X s) <= length (s_X s') + s_num s.
  Proof.
    induction fuel as [|fuel IH]; intros s s' r H; [injection H as <- <-; lia|].
    rewrite loop_iter in H. destruct (iter E o mi mt eps z s) as [s1 [r1|]] eqn:I; apply iter_count in I.
    - injection H as <- <-. auto.
    - apply IH in H. lia.
  Qed.
  Lemma run_count fuel s mi mt eps oc s' : run_optimization fuel E s mi mt eps oc = (s', Some (Ok tt)) ->
    s_num s' + length (s_X s) <= length (s_X s').
  Proof.
    intros H. unfold run_optimization in H. destruct (e_obj E) as [o|]; [|discriminate].
    destruct (initial_evaluation E o _) as [s1 r1] eqn:I. pose proof (initial_rows E _ _ _ _ I) as (X1 & C1).
    cbn [s_X s_ctx set_ctx set_params] in X1, C1. destruct r1 as [[[]|e]|]; try discriminate.
    cbv zeta in H. destruct (loop fuel E o _ _ _ _ _) as [s2 r2] eqn:L. apply loop_count in L.
    cbn [s_X s_num set_ynew set_sugg set_num set_cum set_world] in L. rewrite X1 in L.
    destruct r2 as [[[]|e]|]; try discriminate.
    destruct (compute_results s2) as [s3 r3] eqn:R. pose proof (results_rows _ _ _ R) as R1. injection H as <- ->. rewrite R1.
    enough (s_num s3 = s_num s2) by lia. clear -R. unfold compute_results in R. destruct (s_Y s2); [|injection R as <-; auto].
    destruct (argmin _); [|injection R as <-; auto].
    repeat match goal with H : context [match ?x with _ => _ end] |- _ => destruct x end; injection R as <-; auto.
  Qed.
End Count.
