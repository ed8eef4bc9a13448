From Coq Require Import String List ZArith QArith Qcanon Bool Lia.
From Verif.Model Require Import Py Space Call Config Models Options.
From Verif.Spec Require Import ConfigSpec OptionsSpec.
From Verif.Proof Require Import ConfigP.
Import ListNotations.
Local Open Scope string_scope.
Local Open Scope list_scope.

(** ---- driver *)
Lemma get_obj_raises config : exists e, get_obj config = Raise e.
Proof.
  unfold get_obj. destruct (jget config "resources") as [r|e]; cbn [bind]; [|eauto]. destruct (jget r "cores"); cbn [bind]; [|eauto].
  exists TypeError. reflexivity.
Qed.
Lemma jget_find c k v : jget c k = Ok v <-> find c [k] = Some v.
Proof.
  unfold jget. cbn [find]. destruct c as [d|?|?|?|?|]; try (split; discriminate). destruct (dget k d); split; intros [= ->]; auto.
Qed.
Lemma get_obj_type_error config v : find config ["resources"; "cores"] = Some v -> get_obj config = Raise TypeError.
Proof.
  intros F. cbn [find] in F. destruct config as [d|?|?|?|?|]; try discriminate. destruct (dget "resources" d) as [r|] eqn:G; [|discriminate].
  unfold get_obj. cbn [jget]. rewrite G. cbn [bind]. replace (jget r "cores") with (@Ok json v); [reflexivity|]. symmetry. apply jget_find. exact F.
Qed.
Lemma driver_fails {A} fc (rest : space -> res A) config : exists e, driver_run fc rest config = Raise e.
Proof.
  unfold driver_run. destruct (get_space fc config); cbn [bind]; [|eauto]. destruct (get_obj_raises config) as [e ->]. cbn [bind]. eauto.
Qed.
Lemma driver_type_error {A} fc (rest : space -> res A) new config sp : proper new -> parser (Some new) = Ok config -> ~ leaf_at new ["resources"] ->
  get_space fc config = Ok sp -> driver_run fc rest config = Raise TypeError.
Proof.
  intros P H NL GS. unfold driver_run. rewrite GS. cbn [bind]. cbn [parser] in H.
  assert (exists v, find config ["resources"; "cores"] = Some v) as [v F].
  { destruct (find new ["resources"; "cores"]) as [w|] eqn:FN.
    - destruct (is_dict w) eqn:D.
      + destruct (update_paths ["resources"; "cores"] new default_config config P H) as (_ & X & _). destruct w as [d|?|?|?|?|]; try discriminate.
        destruct (X (ex_intro _ d FN)) as [d' Hd']. eauto.
      + destruct (update_paths ["resources"; "cores"] new default_config config P H) as (X & _). exists w. now apply X.
    - destruct (update_paths ["resources"; "cores"] new default_config config P H) as (_ & _ & _ & X). rewrite X; auto.
      + exists (num 1). reflexivity.
      + intros q s E (w & Hw & Lw). destruct q as [|k q]; simpl in E.
        * simpl in Hw. injection Hw as <-. rewrite update_new_leaf in H by exact Lw. discriminate.
        * injection E as <- E. destruct q as [|k q]; [apply NL; now exists w|]. injection E as <- E. destruct q; [|discriminate]. congruence. }
  rewrite (get_obj_type_error _ _ F). reflexivity.
Qed.

Lemma space_required {A} fc (rest : space -> res A) new config : proper new -> parser (Some new) = Ok config -> find new ["space"] = None ->
  driver_run fc rest config = Raise AssertionError.
Proof.
  intros P H F. cbn [parser] in H. unfold driver_run, get_space. destruct (jget config "space") as [v|e] eqn:G; [|reflexivity]. exfalso. apply jget_find in G.
  destruct (update_paths ["space"] new default_config config P H) as (_ & _ & _ & X). rewrite X in G; [discriminate|exact F|].
  intros q s E (w & Hw & Lw). destruct q as [|k q]; simpl in E.
  - simpl in Hw. injection Hw as <-. rewrite update_new_leaf in H by exact Lw. discriminate.
  - injection E as <- E. destruct q; [|discriminate]. congruence.
Qed.

(** ---- options *)
Ltac strings := repeat match goal with |- context [String.eqb ?a ?b] => destruct (String.eqb_spec a b); [subst; simpl|] end.
Lemma model_types_known kw t ef : model_creator kw t ef <> None <-> In t model_types.
Proof.
  unfold model_creator, model_types. simpl. 
  destruct (String.eqb_spec t "GP"); [subst; split; [auto 10|intros _; discriminate]|].
  destruct (String.eqb_spec t "sparseGP"); [subst; split; [auto 10|intros _; discriminate]|].
  destruct (String.eqb_spec t "GP_MCMC"); [subst; split; [auto 10|intros _; discriminate]|].
  destruct (String.eqb_spec t "RF"); [subst; split; [auto 10|intros _; discriminate]|].
  destruct (String.eqb_spec t "warpedGP"); [subst; split; [auto 10|intros _; discriminate]|].
  destruct (String.eqb_spec t "input_warped_GP"); [subst; split; [auto 10|intros _; discriminate]|].
  split; [congruence|]. intuition congruence.
Qed.
Lemma model_options kw t ef c ps : model_creator kw t ef = Some (c, ps) ->
  Forall (obeys kw ps) (model_rules t) /\ (t <> "RF" -> t <> "warpedGP" -> dget "exact_feval" ps = Some (VVal ef)) /\
  (t = "GP" -> dget "sparse" ps = Some (VVal (JBool false))) /\ (t = "sparseGP" -> dget "sparse" ps = Some (VVal (JBool true))).
Proof.
  unfold model_creator, model_rules.
  destruct (String.eqb_spec t "GP"); [subst; intros [= <- <-]; simpl; repeat split; try discriminate; repeat constructor|].
  destruct (String.eqb_spec t "sparseGP"); [subst; intros [= <- <-]; simpl; repeat split; try discriminate; repeat constructor|].
  destruct (String.eqb_spec t "GP_MCMC"); [subst; intros [= <- <-]; simpl; repeat split; try discriminate; repeat constructor|].
  destruct (String.eqb_spec t "RF"); [subst; intros [= <- <-]; simpl; repeat split; try discriminate; try congruence; repeat constructor|].
  destruct (String.eqb_spec t "warpedGP"); [subst; intros [= <- <-]; simpl; repeat split; try discriminate; try congruence; repeat constructor|].
  destruct (String.eqb_spec t "input_warped_GP"); [subst; intros [= <- <-]; simpl; repeat split; try discriminate; repeat constructor|].
  discriminate.
Qed.
Lemma dget_filter_none {A} (f : string -> bool) k (d : list (string * A)) : f k = false -> dget k (filter (fun p => f (fst p)) d) = None.
Proof.
  intros F. induction d as [|[k' v] d IH]; [reflexivity|]. cbn [filter fst]. destruct (f k') eqn:E; [|exact IH]. cbn [dget].
  destruct (String.eqb_spec k k'); [congruence|exact IH].
Qed.
Lemma no_verbosity given : dget "verbosity_model" (extra_keywords given) = None.
Proof. unfold extra_keywords. apply (dget_filter_none (fun s => negb (smem s named_parameters))). reflexivity. Qed.
Lemma no_options given given' t ef ef' : t = "RF" \/ t = "warpedGP" -> model_creator (extra_keywords given) t ef = model_creator (extra_keywords given') t ef'.
Proof. intros [->| ->]; [|reflexivity]. unfold model_creator, kget. rewrite !no_verbosity. reflexivity. Qed.
Lemma verbosity_ignored given t ef c ps v : model_creator (extra_keywords given) t ef = Some (c, ps) -> dget "verbose" ps = Some v -> v = VVal (JBool false).
Proof.
  intros H V. pose proof (no_verbosity given) as K.
  destruct (model_options _ _ _ _ _ H) as [F _]. revert H F. unfold model_creator, model_rules, kget. rewrite K.
  destruct (String.eqb_spec t "GP"); [subst; intros [= <- <-] _; simpl in V; congruence|].
  destruct (String.eqb_spec t "sparseGP"); [subst; intros [= <- <-] _; simpl in V; congruence|].
  destruct (String.eqb_spec t "GP_MCMC"); [subst; intros [= <- <-] _; simpl in V; congruence|].
  destruct (String.eqb_spec t "RF"); [subst; intros [= <- <-] _; simpl in V; congruence|].
  destruct (String.eqb_spec t "warpedGP"); [subst; intros [= <- <-] _; simpl in V; congruence|].
  destruct (String.eqb_spec t "input_warped_GP"); [subst; intros [= <- <-] _; simpl in V; congruence|].
  discriminate.
Qed.

(** the acquisitions *)
Lemma acquisition_outcome kw at_ m a : acquisition_creator kw at_ m = Ok a ->
  m <> NoModel /\ (at_ = None \/ (exists t, at_ = Some t /\ In t plain_acquisitions) \/ (exists t, at_ = Some t /\ In t mcmc_acquisitions) /\ MCMC_sampler m = true).
Proof.
  unfold acquisition_creator. assert (C : forall b x, construct b m x = Ok a -> m <> NoModel /\ (b = true -> MCMC_sampler m = true)).
  { intros b x. unfold construct. destruct m; try discriminate; (split; [discriminate|]); intros ->; destruct (MCMC_sampler _); auto; discriminate. }
  destruct at_ as [t|]; [|intros H; apply C in H; tauto].
  unfold plain_acquisitions, mcmc_acquisitions.
  destruct (String.eqb_spec t "EI"); [subst; intros H; apply C in H; split; [tauto|]; right; left; eexists; split; [reflexivity|]; simpl; auto|].
  destruct (String.eqb_spec t "EI_MCMC"); [subst; intros H; apply C in H; split; [tauto|]; right; right; split; [eexists; split; [reflexivity|]; simpl; auto|tauto]|].
  destruct (String.eqb_spec t "MPI"); [subst; intros H; apply C in H; split; [tauto|]; right; left; eexists; split; [reflexivity|]; simpl; auto|].
  destruct (String.eqb_spec t "MPI_MCMC"); [subst; intros H; apply C in H; split; [tauto|]; right; right; split; [eexists; split; [reflexivity|]; simpl; auto|tauto]|].
  destruct (String.eqb_spec t "LCB"); [subst; intros H; apply C in H; split; [tauto|]; right; left; eexists; split; [reflexivity|]; simpl; auto|].
  destruct (String.eqb_spec t "LCB_MCMC"); [subst; intros H; apply C in H; split; [tauto|]; right; right; split; [eexists; split; [reflexivity|]; simpl; auto|tauto]|].
  discriminate.
Qed.
Lemma acquisition_ok kw at_ m : m <> NoModel ->
  (at_ = None \/ (exists t, at_ = Some t /\ In t plain_acquisitions) \/ (exists t, at_ = Some t /\ In t mcmc_acquisitions) /\ MCMC_sampler m = true) ->
  exists a, acquisition_creator kw at_ m = Ok a /\ fst a <> ALP.
Proof.
  intros N H. assert (C : forall b x, (b = true -> MCMC_sampler m = true) -> construct b m x = Ok x).
  { intros b x B. unfold construct. destruct b; [rewrite (B eq_refl)|]; simpl; destruct m; congruence. }
  destruct H as [->|[(t & -> & I)|[(t & -> & I) M]]].
  - eexists. split; [apply C; discriminate|discriminate].
  - simpl in I. destruct I as [<-|[<-|[<-|[]]]]; (eexists; split; [apply C; discriminate|discriminate]).
  - simpl in I. destruct I as [<-|[<-|[<-|[]]]]; (eexists; split; [apply C; auto|discriminate]).
Qed.
Lemma evaluator_ok kw et a bs mt m : m <> NoModel -> is_LP a = false ->
  ((exists e, evaluator_creator kw et a bs mt m = Ok e) <->
   (et = Some "local_penalization" -> bs <> 1%Z -> In mt penalizable /\ forall v, dget "acquisition_transformation" kw = Some v -> is_str v)).
Proof.
  intros N L. unfold evaluator_creator, kget. rewrite L.
  destruct (Z.eqb_spec bs 1) as [->|B1]; [simpl; split; eauto; intros _ _ X; congruence|]. cbn [orb].
  destruct et as [t|]; cbv beta iota zeta.
  - destruct (String.eqb_spec t "sequential"); [subst; split; eauto; discriminate|].
    destruct (Z.ltb 1 bs && (String.eqb t "random" || false)) eqn:R.
    { apply andb_true_iff in R. rewrite orb_false_r in R. destruct R as [_ R]. apply String.eqb_eq in R. subst. split; eauto; discriminate. }
    destruct (Z.ltb 1 bs && String.eqb t "thompson_sampling") eqn:T.
    { apply andb_true_iff in T. destruct T as [_ T]. apply String.eqb_eq in T. subst. split; eauto; discriminate. }
    destruct (String.eqb_spec t "local_penalization") as [->|NL].
    + assert (EB : existsb (String.eqb mt) ["GP"; "sparseGP"; "GP_MCMC"; "warpedGP"] = true <-> In mt penalizable).
      { rewrite existsb_exists. split; [intros (x & I & E); apply String.eqb_eq in E; now subst|]. intros I. exists mt. split; [exact I|apply String.eqb_refl]. }
      destruct (existsb (String.eqb mt) _); cbn [negb].
      * destruct (dget "acquisition_transformation" kw) as [v|].
        -- assert (V : (exists e, match m, VVal v with NoModel, _ => Raise AttributeError
                        | _, VVal (JStr _) => Ok (Some (ELocalPenalization, ("transform", VVal v) :: bound par_batch [VAcquisition; VVal (num bs)]))
                        | _, _ => Raise AttributeError end = Ok e) <-> is_str v).
           { destruct m; try congruence; destruct v; split; intros [x X]; try discriminate; eauto; eexists; eauto. }
           rewrite V. split.
           ++ intros S0 _ _. split; [now apply EB|]. intros v' [= <-]. exact S0.
           ++ intros H. apply (H eq_refl B1). reflexivity.
        -- destruct m; try congruence; (split; [|eauto]); intros _ _ _; (split; [now apply EB|discriminate]).
      * split; [intros [e X]; discriminate|]. intros H. exfalso. destruct (H eq_refl B1) as [I _]. apply EB in I. discriminate.
    + split; [congruence|]. eauto.
  - split; [discriminate|]. intros _. destruct (Z.ltb 1 bs); cbn; eauto.
Qed.
Lemma is_built_MCMC kw t ef c : model_creator kw t ef = Some c -> (MCMC_sampler (Built c) = true <-> t = "GP_MCMC").
Proof.
  unfold model_creator.
  destruct (String.eqb_spec t "GP"); [subst; intros [= <-]; split; discriminate|].
  destruct (String.eqb_spec t "sparseGP"); [subst; intros [= <-]; split; discriminate|].
  destruct (String.eqb_spec t "GP_MCMC"); [subst; intros [= <-]; split; auto|].
  destruct (String.eqb_spec t "RF"); [subst; intros [= <-]; split; discriminate|].
  destruct (String.eqb_spec t "warpedGP"); [subst; intros [= <-]; split; discriminate|].
  destruct (String.eqb_spec t "input_warped_GP"); [subst; intros [= <-]; split; discriminate|].
  discriminate.
Qed.
Lemma built_not_LP kw at_ m a : acquisition_creator kw at_ m = Ok a -> is_LP (BuiltAcq a) = false.
Proof.
  unfold acquisition_creator. assert (C : forall b x, construct b m x = Ok a -> a = x).
  { intros b x. unfold construct. destruct m; try discriminate; destruct (_ && _); congruence. }
  destruct at_ as [t|]; [|intros H; apply C in H; now subst].
  repeat match goal with |- context [String.eqb t ?s] => destruct (String.eqb t s); [intros H; apply C in H; now subst|] end. discriminate.
Qed.
Lemma components_ok kw mt ef at_ et bs :
  (exists c, components kw None None mt ef at_ et bs = Ok c) <->
  In mt model_types /\
  (at_ = None \/ (exists t, at_ = Some t /\ In t plain_acquisitions) \/ (exists t, at_ = Some t /\ In t mcmc_acquisitions) /\ mt = "GP_MCMC") /\
  (et = Some "local_penalization" -> bs <> 1%Z -> In mt penalizable /\ forall v, dget "acquisition_transformation" kw = Some v -> is_str v).
Proof.
  unfold components. rewrite <- (model_types_known kw mt ef). destruct (model_creator kw mt ef) as [c|] eqn:MC.
  - pose proof (is_built_MCMC _ _ _ _ MC) as IM. destruct (acquisition_creator kw at_ (Built c)) as [a|e] eqn:AC.
    + destruct (acquisition_outcome _ _ _ _ AC) as [N H]. rewrite IM in H. cbn [bind].
      rewrite <- (evaluator_ok kw et (BuiltAcq a) bs mt (Built c) N (built_not_LP _ _ _ _ AC)).
      destruct (evaluator_creator kw et (BuiltAcq a) bs mt (Built c)) as [e|e]; cbn [bind]; split.
      * intros _. split; [discriminate|]. split; [exact H|eauto].
      * intros _. eauto.
      * intros [x X]. discriminate.
      * intros (_ & _ & x & X). discriminate.
    + cbn [bind]. split; [intros [x X]; discriminate|]. intros (_ & H & _). rewrite <- IM in H.
      destruct (acquisition_ok kw at_ (Built c) ltac:(discriminate) H) as (a & Ha & _). congruence.
  - split; [|intros (X & _); congruence]. intros [x X]. exfalso.
    destruct (acquisition_creator kw at_ NoModel) as [a|e] eqn:AC; [|discriminate]. apply acquisition_outcome in AC. tauto.
Qed.

Lemma evaluator_result kw et a bs mt m e : evaluator_creator kw et a bs mt m = Ok e ->
  (e = None <-> bs <> 1%Z /\ et <> Some "sequential" /\ et <> Some "local_penalization" /\
                ((bs < 1)%Z \/ et <> None /\ et <> Some "random" /\ et <> Some "thompson_sampling")) /\
  (forall c ps, e = Some (c, ps) ->
     (c = ESequential <-> bs = 1%Z \/ et = Some "sequential") /\ (c = ERandom -> et = None \/ et = Some "random") /\
     (c = EThompson -> et = Some "thompson_sampling") /\ (c = ELocalPenalization -> et = Some "local_penalization" /\
        obeys kw ps ("acquisition_transformation", "transform", JStr "none")) /\
     (c <> ESequential -> dget "batch_size" ps = Some (VVal (num bs)))).
Proof.
  unfold evaluator_creator, kget.
  destruct (Z.eqb_spec bs 1) as [->|B1].
  { cbn [orb]. intros [= <-]. split; [split; [discriminate|]; tauto|]. intros c ps [= <- <-]. repeat split; try discriminate; auto; congruence. }
  cbn [orb]. destruct et as [t|]; cbv beta iota zeta.
  - destruct (String.eqb_spec t "sequential") as [->|NS].
    { intros [= <-]. split; [split; [discriminate|]; tauto|]. intros c ps [= <- <-]. repeat split; try discriminate; auto; congruence. }
    destruct (Z.ltb 1 bs && (String.eqb t "random" || false)) eqn:R.
    { apply andb_true_iff in R. rewrite orb_false_r in R. destruct R as [LT R]. apply String.eqb_eq in R. subst t. apply Z.ltb_lt in LT.
      intros [= <-]. split; [split; [discriminate|]; intros (_ & _ & _ & [H|(_ & H & _)]); [lia|congruence]|].
      intros c ps [= <- <-]. repeat split; try discriminate; auto. intros [H|H]; [lia|congruence]. }
    destruct (Z.ltb 1 bs && String.eqb t "thompson_sampling") eqn:T.
    { apply andb_true_iff in T. destruct T as [LT T]. apply String.eqb_eq in T. subst t. apply Z.ltb_lt in LT.
      intros [= <-]. split; [split; [discriminate|]; intros (_ & _ & _ & [H|(_ & _ & H)]); [lia|congruence]|].
      intros c ps [= <- <-]. repeat split; try discriminate; auto. intros [H|H]; [lia|congruence]. }
    destruct (String.eqb_spec t "local_penalization") as [->|NL].
    + destruct (negb _); [discriminate|]. destruct (is_LP a); [discriminate|].
      set (tr := match dget "acquisition_transformation" kw with Some v => v | None => JStr "none" end).
      intros H. assert (E : e = Some (ELocalPenalization, ("transform", VVal tr) :: bound par_batch [VAcquisition; VVal (num bs)])).
      { destruct m; try discriminate; destruct tr; try discriminate; congruence. }
      subst e. split; [split; [discriminate|]; intros (_ & _ & X & _); congruence|].
      intros c ps [= <- <-]. repeat split; try discriminate; auto. intros [X|X]; [lia|congruence].
    + intros [= <-]. split; [|discriminate]. split; [|auto]. intros _. split; [exact B1|]. split; [congruence|]. split; [congruence|].
      destruct (Z.ltb_spec 1 bs) as [LT|LT]; [|left; lia]. right. rewrite orb_false_r in R. cbn [andb] in R, T.
      apply String.eqb_neq in R, T. repeat split; congruence.
  - destruct (Z.ltb_spec 1 bs) as [LT|LT]; cbn.
    + intros [= <-]. split; [split; [discriminate|]; intros (_ & _ & _ & [H|(H & _)]); [lia|congruence]|].
      intros c ps [= <- <-]. repeat split; try discriminate; auto. intros [H|H]; [lia|congruence].
    + intros [= <-]. split; [|discriminate]. split; [|auto]. intros _. repeat split; try congruence; try discriminate. left. lia.
Qed.
Lemma components_evaluator kw um ua mt ef at_ et bs m a e : components kw um ua mt ef at_ et bs = Ok (m, a, e) ->
  exists mt', evaluator_creator kw et a bs mt' m = Ok e.
Proof.
  unfold components. set (m0 := match um with Some _ => _ | None => _ end). set (mt0 := match um with Some _ => _ | None => _ end).
  destruct (match ua with Some lp => Ok (UserAcq lp) | None => _ end) as [a0|]; cbn [bind]; [|discriminate].
  destruct (evaluator_creator kw et a0 bs mt0 m0) as [e0|] eqn:E; cbn [bind]; [|discriminate]. intros [= <- <- <-]. eauto.
Qed.
Lemma unknown_model kw mt ef at_ et bs : ~ In mt model_types ->
  (at_ = None \/ (exists t, at_ = Some t /\ In t (plain_acquisitions ++ mcmc_acquisitions))) ->
  components kw None None mt ef at_ et bs = Raise AttributeError.
Proof.
  intros N H. unfold components. rewrite <- (model_types_known kw mt ef) in N. destruct (model_creator kw mt ef); [exfalso; apply N; discriminate|].
  destruct H as [->|(t & -> & I)]; [reflexivity|]. simpl in I. destruct I as [<-|[<-|[<-|[<-|[<-|[<-|[]]]]]]]; reflexivity.
Qed.
Lemma user_model_no_penalization kw mcmc ua mt ef at_ bs c : bs <> 1%Z ->
  components kw (Some mcmc) ua mt ef at_ (Some "local_penalization") bs <> Ok c.
Proof.
  intros B. unfold components. destruct (match ua with Some lp => Ok (UserAcq lp) | None => _ end) as [a|]; cbn [bind]; [|discriminate].
  unfold evaluator_creator. destruct (Z.eqb_spec bs 1); [congruence|]. cbn [orb]. cbv beta iota zeta.
  change (String.eqb "local_penalization" "sequential") with false. change (String.eqb "local_penalization" "random") with false.
  change (String.eqb "local_penalization" "thompson_sampling") with false. rewrite !andb_false_r. cbn. discriminate.
Qed.
Lemma user_LP_no_penalization kw mt ef at_ bs : bs <> 1%Z -> In mt penalizable ->
  components kw None (Some true) mt ef at_ (Some "local_penalization") bs = Raise UnboundLocalError.
Proof.
  intros B I. unfold components. cbn [bind]. unfold evaluator_creator. destruct (Z.eqb_spec bs 1); [congruence|]. cbn [orb]. cbv beta iota zeta.
  change (String.eqb "local_penalization" "sequential") with false. change (String.eqb "local_penalization" "random") with false.
  change (String.eqb "local_penalization" "thompson_sampling") with false. rewrite !andb_false_r.
  simpl in I. destruct I as [<-|[<-|[<-|[<-|[]]]]]; reflexivity.
Qed.
Lemma acquisition_options kw at_ m c ps : acquisition_creator kw at_ m = Ok (c, ps) ->
  dget "model" ps = Some VModel /\ dget "space" ps = Some VSpace /\ dget "optimizer" ps = Some VOptimizer /\
  (at_ = Some "LCB" \/ at_ = Some "LCB_MCMC" -> obeys kw ps ("acquisition_weight", "exploration_weight", num 2) /\ dget "cost_withGradients" ps = Some (VVal JNull)) /\
  (at_ <> Some "LCB" -> at_ <> Some "LCB_MCMC" -> obeys kw ps ("acquisition_jitter", "jitter", JNum (Q2Qc (1 # 100))) /\ dget "cost_withGradients" ps = Some VCost).
Proof.
  unfold acquisition_creator. assert (C : forall b x, construct b m x = Ok (c, ps) -> (c, ps) = x).
  { intros b x. unfold construct. destruct m; try discriminate; destruct (_ && _); congruence. }
  destruct at_ as [t|].
  2:{ intros H. apply C in H. injection H as -> ->. repeat split; try discriminate; destruct H; discriminate. }
  destruct (String.eqb_spec t "EI"); [subst; intros H; apply C in H; injection H as -> ->; repeat split; try discriminate; destruct H; discriminate|].
  destruct (String.eqb_spec t "EI_MCMC"); [subst; intros H; apply C in H; injection H as -> ->; repeat split; try discriminate; destruct H; discriminate|].
  destruct (String.eqb_spec t "MPI"); [subst; intros H; apply C in H; injection H as -> ->; repeat split; try discriminate; destruct H; discriminate|].
  destruct (String.eqb_spec t "MPI_MCMC"); [subst; intros H; apply C in H; injection H as -> ->; repeat split; try discriminate; destruct H; discriminate|].
  destruct (String.eqb_spec t "LCB"); [subst; intros H; apply C in H; injection H as -> ->; repeat split; try discriminate; congruence|].
  destruct (String.eqb_spec t "LCB_MCMC"); [subst; intros H; apply C in H; injection H as -> ->; repeat split; try discriminate; congruence|].
  discriminate.
Qed.
