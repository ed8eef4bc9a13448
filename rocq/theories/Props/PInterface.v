(** C59-C62, C75, C76: configuration files, output, the driver and the choice of components.
    Specification: Spec/ConfigSpec.v, Spec/OutputSpec.v, Spec/OptionsSpec.v.  Model: Model/Config.v, Model/Output.v, Model/Options.v. *)
From Coq Require Import String List Bool Arith Lia ZArith QArith Qcanon.
From Verif.Model Require Import Py Space Call Config Output Models Options.
From Verif.Spec Require Import ConfigSpec OutputSpec OptionsSpec.
From Verif.Proof Require Import Num ConfigP OutputP OptionsP.
Import ListNotations.
Local Open Scope nat_scope.
Local Open Scope string_scope.
Local Open Scope list_scope.

(** ---------------------------------------------------------------- C59 *)
Theorem C59_value_at_every_path : forall p new def r, proper new -> update_config new def = Ok r ->
  (forall v, find new p = Some v -> is_dict v = false -> find r p = Some v) /\
  (dict_at new p -> dict_at r p) /\
  (find new p = None -> (exists q s, p = q ++ s /\ leaf_at new q) -> find r p = None) /\
  (find new p = None -> (forall q s, p = q ++ s -> ~ leaf_at new q) -> find r p = find def p).
Proof. exact update_paths. Qed.
Print Assumptions C59_value_at_every_path.
(** No key of the default disappears unless the file puts a value that is not a dictionary at the path or above it. *)
Theorem C59_no_key_disappears : forall p new def r v, proper new -> update_config new def = Ok r -> find def p = Some v ->
  find r p <> None \/ exists q s, p = q ++ s /\ s <> [] /\ leaf_at new q.
Proof.
  intros p new def r v P H F. destruct (update_paths p new def r P H) as (A & B & _ & D). destruct (find new p) as [w|] eqn:FN.
  - left. destruct (is_dict w) eqn:W.
    + destruct w as [d|?|?|?|?|]; try discriminate. destruct (B (ex_intro _ d FN)) as [d' E]. congruence.
    + rewrite (A w eq_refl W). discriminate.
  - destruct (exists_leaf_dec new p) as [(q & s & E & L)|N].
    + right. exists q, s. split; [exact E|]. split; [|exact L]. intros ->. rewrite app_nil_r in E. subst q. destruct L as (w & Hw & _). congruence.
    + left. rewrite (D eq_refl N), F. discriminate.
Qed.
Print Assumptions C59_no_key_disappears.
(** The merge succeeds exactly when the file is a dictionary and has no dictionary where the default has another value. *)
Theorem C59_when_it_fails : forall new def, proper new ->
  match update_config new def with
  | Ok _ => dict_at new [] /\ forall p, dict_at new p -> ~ leaf_at def p
  | Raise e => ~ (dict_at new [] /\ forall p, dict_at new p -> ~ leaf_at def p) /\ (e = AttributeError \/ e = TypeError)
  end.
Proof.
  intros new def P. pose proof (update_ok_iff (S (json_size new)) new def (Nat.lt_succ_diag_r _) P) as I.
  destruct (update_config new def) as [r|e] eqn:U.
  - apply I. eauto.
  - split; [intros H; apply I in H; destruct H; discriminate|]. apply (update_raises (S (json_size new)) new def e); [lia|exact U].
Qed.
Print Assumptions C59_when_it_fails.
(** What the driver works with is the file merged into the defaults. *)
Theorem C59_parsed : forall p new config, proper new -> parser (Some new) = Ok config ->
  (forall v, find new p = Some v -> is_dict v = false -> find config p = Some v) /\
  (find new p = None -> (forall q s, p = q ++ s -> ~ leaf_at new q) -> find config p = find default_config p).
Proof. intros p new config P H. destruct (update_paths p new default_config config P H) as (A & _ & _ & D). auto. Qed.
Print Assumptions C59_parsed.
Definition example_file : json := JDict
  [("space", JList [JStr "x"]); ("resources", JDict [("cores", num 4)]); ("acquisition", JDict [("optimizer", JDict [("name", JStr "CMA")]); ("type", JStr "LCB")])].
Example C59_nonvacuous : proper example_file /\ exists r, update_config example_file default_config = Ok r /\
  find r ["acquisition"; "optimizer"; "name"] = Some (JStr "CMA") /\ find r ["acquisition"; "jitter"] = Some (JNum (Q2Qc (1 # 100))) /\
  find r ["resources"; "cores"] = Some (num 4) /\ find r ["resources"; "max-run-time"] = Some (JStr "NA").
Proof.
  split.
  - unfold example_file. prove_proper.
  - eexists. split; [vm_compute; reflexivity|]. repeat split; vm_compute; reflexivity.
Qed.

(** ---------------------------------------------------------------- C60 *)
(** [save i data]: what saving does; here it never raises.  The data with which saver i was called are exactly the histories at
    which it is due, in order. *)
Theorem C60_schedule : forall save ivs o ens i interval, (forall i d, save i d = None) -> output_eng ivs = Ok o -> nth_error ivs i = Some (z2q interval) ->
  saved_by i (append_all save o ens) = filter (due interval) (histories ens).
Proof. intros save ivs o ens i iv Q O N. apply (proj1 (proj2 (engine_inv save ivs o ens Q O)) i iv N). Qed.
Print Assumptions C60_schedule.
(** An interval that is not a whole number is accepted, and its saver is never called, not even at the end. *)
Theorem C60_fractional_refuted : forall save ivs o ens i interval, (forall i d, save i d = None) -> output_eng ivs = Ok o -> nth_error ivs i = Some interval ->
  (forall k : Z, interval <> z2q k) -> saved_by i (append_all save o ens) = [].
Proof. intros save ivs o ens i iv Q O N F. apply (proj2 (proj2 (engine_inv save ivs o ens Q O)) i iv N F). Qed.
Print Assumptions C60_fractional_refuted.
(** With savers that may raise: nothing appended is lost, every call sees all the data so far, and the saver that raised is called
    again at the next append_iter, whatever its interval, unless a saver before it raises. *)
Theorem C60_exceptions : forall save ivs o ens, output_eng ivs = Ok o ->
  o_data (append_all save o ens) = ens /\
  (forall i d x, In (i, d, x) (o_fired (append_all save o ens)) -> In d (histories ens)) /\
  forall en o' e, append_iter save (append_all save o ens) en = (o', Some e) ->
    exists i, In (i, ens ++ [en], Some e) (o_fired o') /\
      forall save' en', (forall j d, j < i -> save' j d = None) ->
        In (i, ens ++ [en; en'], save' i (ens ++ [en; en'])) (o_fired (fst (append_iter save' o' en'))).
Proof.
  intros save ivs o ens O. assert (OD : o_data (append_all save o ens) = ens).
  { rewrite append_all_data. unfold output_eng in O. destruct (mapM data_saver ivs); [|discriminate]. simpl in O. injection O as <-. reflexivity. }
  split; [exact OD|]. split; [intros i d x; apply (fired_all_data save ivs o ens i d x O)|].
  intros en o' e H. destruct (retry _ _ _ _ _ H) as (i & fs & F & _ & R).
  assert (D' : o_data o' = ens ++ [en]) by (pose proof (append_data save (append_all save o ens) en) as AD; rewrite H, OD in AD; exact AD).
  rewrite D' in *. exists i. split.
  - rewrite F. apply in_or_app. right. apply in_or_app. right. now left.
  - intros save' en' Q. replace (ens ++ [en; en']) with ((ens ++ [en]) ++ [en']) by now rewrite <- app_assoc. now apply R.
Qed.
Print Assumptions C60_exceptions.
(** A saver that raises makes the savers after it late: the schedule fails. *)
Theorem C60_schedule_refuted : exists save ivs o ens i interval, output_eng ivs = Ok o /\ nth_error ivs i = Some (z2q interval) /\
  (forall d, save i d = None) /\ saved_by i (append_all save o ens) <> filter (due interval) (histories ens).
Proof.
  set (en := mk_entry 0 q0 [] [] false).
  exists (fun i d => match i, d with 0, [_] => Some ValueError | _, _ => None end), [z2q 1; z2q 1], (mk_engine [z2q 1; z2q 1] [z2q 1; z2q 1] [] []), [en; en], 1, 1%Z.
  split; [reflexivity|]. split; [reflexivity|]. split; [reflexivity|]. vm_compute. discriminate.
Qed.
Print Assumptions C60_schedule_refuted.
Theorem C60_intervals : forall ivs, (exists o, output_eng ivs = Ok o) <-> Forall (fun iv => (q0 < iv)%Qc \/ iv = z2q (-1)) ivs.
Proof.
  intros ivs. unfold output_eng. split.
  - intros [o H]. destruct (mapM data_saver ivs) as [l|] eqn:M; [|discriminate]. apply (mapM_saver ivs l M).
  - intros F. assert (M : mapM data_saver ivs = Ok ivs).
    { induction F as [|iv ivs G _ IH]; [reflexivity|]. cbn [mapM]. unfold data_saver at 1.
      replace (qclt q0 iv || qceq iv (z2q (-1))) with true by (symmetry; apply orb_true_iff; destruct G; [left; now apply qclt_spec|right; now apply qceq_spec]).
      simpl. now rewrite IH. }
    rewrite M. simpl. eauto.
Qed.
Print Assumptions C60_intervals.
Definition call_at (n : nat) (final : bool) : entry := mk_entry n (nat2q n) [[nat2q n]] [nat2q (7 - n)] final.
Example C60_nonvacuous : exists o, output_eng [z2q 2; z2q (-1); Q2Qc (5 # 2)] = Ok o /\
  map (@length _) (saved_by 0 (append_all (fun _ _ => None) o [call_at 0 false; call_at 1 false; call_at 2 true; call_at 3 false; call_at 4 false; call_at 5 true])) = [2; 5] /\
  map (@length _) (saved_by 1 (append_all (fun _ _ => None) o [call_at 0 false; call_at 1 false; call_at 2 true; call_at 3 false; call_at 4 false; call_at 5 true])) = [3; 6] /\
  saved_by 2 (append_all (fun _ _ => None) o [call_at 0 false; call_at 1 false; call_at 2 false; call_at 3 false; call_at 4 false; call_at 5 true]) = [] /\
  (forall k : Z, Q2Qc (5 # 2) <> z2q k).
Proof.
  eexists. split; [reflexivity|]. do 3 (split; [vm_compute; reflexivity|]). intros k E. apply (f_equal this) in E. rewrite z2q_this in E. vm_compute in E. discriminate E.
Qed.

(** ---------------------------------------------------------------- C61 *)
(** [from_config] is Design_space.fromConfig and [rest] everything after the objective is built: arbitrary. *)
Theorem C61_never_runs : forall A from_config (rest : space -> res A) config x, driver_run from_config rest config <> Ok x.
Proof. intros A fc rest config x. destruct (driver_fails fc rest config) as [e ->]. discriminate. Qed.
Print Assumptions C61_never_runs.
Theorem C61_type_error : forall A from_config (rest : space -> res A) new config sp, proper new -> parser (Some new) = Ok config ->
  ~ leaf_at new ["resources"] -> get_space from_config config = Ok sp -> driver_run from_config rest config = Raise TypeError.
Proof. exact @driver_type_error. Qed.
Print Assumptions C61_type_error.
(** A file without a design space is refused before anything else. *)
Theorem C61_space_required : forall A from_config (rest : space -> res A) new config, proper new -> parser (Some new) = Ok config ->
  find new ["space"] = None -> driver_run from_config rest config = Raise AssertionError.
Proof. exact @space_required. Qed.
Print Assumptions C61_space_required.
(** The file of C59's example and any space: the hypotheses hold; without the extra keyword the call would be accepted. *)
Example C61_nonvacuous : forall sp, exists config, parser (Some example_file) = Ok config /\ ~ leaf_at example_file ["resources"] /\
  get_space (fun _ _ => Ok sp) config = Ok sp /\ call sig_SingleObjective 2 ["space"] = Ok tt.
Proof.
  intros sp. eexists. split; [vm_compute; reflexivity|]. split; [|split; reflexivity]. intros (v & [= <-] & L). discriminate.
Qed.

(** ---------------------------------------------------------------- C62 *)
(** No model or acquisition object is passed: the choice of the components succeeds exactly when ... *)
Theorem C62_accepted : forall kw model_type exact_feval acquisition_type evaluator_type batch_size,
  (exists c, components kw None None model_type exact_feval acquisition_type evaluator_type batch_size = Ok c) <->
  In model_type model_types /\
  (acquisition_type = None \/ (exists t, acquisition_type = Some t /\ In t plain_acquisitions) \/
   (exists t, acquisition_type = Some t /\ In t mcmc_acquisitions) /\ model_type = "GP_MCMC") /\
  (evaluator_type = Some "local_penalization" -> batch_size <> 1%Z ->
     In model_type penalizable /\ forall v, dget "acquisition_transformation" kw = Some v -> is_str v).
Proof. exact components_ok. Qed.
Print Assumptions C62_accepted.
(** When it succeeds, the evaluator may still be None; otherwise it is the chosen one and knows the batch size, except that
    'sequential' drops it. *)
Theorem C62_evaluator : forall kw user_model user_acq model_type exact_feval acquisition_type et bs m a e,
  components kw user_model user_acq model_type exact_feval acquisition_type et bs = Ok (m, a, e) ->
  (e = None <-> bs <> 1%Z /\ et <> Some "sequential" /\ et <> Some "local_penalization" /\
                ((bs < 1)%Z \/ et <> None /\ et <> Some "random" /\ et <> Some "thompson_sampling")) /\
  (forall c ps, e = Some (c, ps) ->
     (c = ESequential <-> bs = 1%Z \/ et = Some "sequential") /\ (c = ERandom -> et = None \/ et = Some "random") /\
     (c = EThompson -> et = Some "thompson_sampling") /\
     (c = ELocalPenalization -> et = Some "local_penalization" /\ obeys kw ps ("acquisition_transformation", "transform", JStr "none")) /\
     (c <> ESequential -> dget "batch_size" ps = Some (VVal (num bs)))).
Proof. intros kw um ua mt ef at_ et bs m a e H. destruct (components_evaluator _ _ _ _ _ _ _ _ _ _ _ H) as [mt' E]. exact (evaluator_result _ _ _ _ _ _ _ E). Qed.
Print Assumptions C62_evaluator.
(** Documented model types that select nothing. *)
Theorem C62_documented_types_refuted : forall t, In t documented_model_types -> ~ In t model_types ->
  (t = "warperdGP" \/ t = "InputWarpedGP") /\
  forall kw exact_feval evaluator_type batch_size,
    components kw None None t exact_feval (Some "EI") evaluator_type batch_size = Raise AttributeError.
Proof.
  intros t I N. split.
  - simpl in I. destruct I as [<-|[<-|[<-|[<-|[<-|[<-|[]]]]]]]; auto; exfalso; apply N; simpl; auto.
  - intros kw ef et bs. apply unknown_model; [exact N|]. right. exists "EI". split; [reflexivity|]. simpl. auto.
Qed.
Print Assumptions C62_documented_types_refuted.
(** Local penalization is refused with every model object of the user, and with an acquisition that already is the penalised one. *)
Theorem C62_penalization_refused :
  (forall kw mcmc user_acq model_type exact_feval acquisition_type batch_size c, batch_size <> 1%Z ->
     components kw (Some mcmc) user_acq model_type exact_feval acquisition_type (Some "local_penalization") batch_size <> Ok c) /\
  (forall kw model_type exact_feval acquisition_type batch_size, batch_size <> 1%Z -> In model_type penalizable ->
     components kw None (Some true) model_type exact_feval acquisition_type (Some "local_penalization") batch_size = Raise UnboundLocalError).
Proof. split; [exact user_model_no_penalization|exact user_LP_no_penalization]. Qed.
Print Assumptions C62_penalization_refused.
Example C62_nonvacuous : (exists m a, components [] None None "GP" (JBool false) (Some "EI") (Some "random") 0 = Ok (m, a, None)) /\
  (exists m a ps, components [] None None "warpedGP" (JBool false) (Some "LCB") (Some "local_penalization") 4 = Ok (m, a, Some (ELocalPenalization, ps))) /\
  (In "warperdGP" documented_model_types /\ ~ In "warperdGP" model_types) /\ (In "InputWarpedGP" documented_model_types /\ ~ In "InputWarpedGP" model_types).
Proof.
  split; [eexists; eexists; reflexivity|]. split; [eexists; eexists; eexists; reflexivity|].
  split; (split; [simpl; auto 10|intros I; simpl in I; intuition discriminate]).
Qed.

(** ---------------------------------------------------------------- C75 *)
(** A line of the log: the last iteration and time, and the first of the smallest values so far with its point. *)
Theorem C75_line : forall data, same_shape data -> pairs data <> [] ->
  exists it t y x pre post, logger_line data = Ok (it, t, y, x) /\
    (exists d0 last, data = d0 ++ [last] /\ it = en_iters last /\ t = en_time last) /\
    pairs data = pre ++ (x, y) :: post /\ (forall p, In p pre -> (y < snd p)%Qc) /\ (forall p, In p post -> (y <= snd p)%Qc).
Proof. exact logger_line_spec. Qed.
Print Assumptions C75_line.
Theorem C75_objective_never_increases : forall d1 d2 it1 t1 y1 x1 it2 t2 y2 x2, same_shape (d1 ++ d2) ->
  logger_line d1 = Ok (it1, t1, y1, x1) -> logger_line (d1 ++ d2) = Ok (it2, t2, y2, x2) -> (y2 <= y1)%Qc.
Proof. exact logger_monotone. Qed.
Print Assumptions C75_objective_never_increases.
Example C75_nonvacuous : same_shape [call_at 0 false; call_at 1 false; call_at 1 false] /\
  exists y x, logger_line [call_at 0 false; call_at 1 false; call_at 1 false] = Ok (1, nat2q 1, y, x) /\ y = nat2q 6 /\ x = [nat2q 1].
Proof. split; [repeat constructor|]. eexists. eexists. split; [vm_compute; reflexivity|]. split; vm_compute; reflexivity. Qed.

(** ---------------------------------------------------------------- C76 *)
(** The model: every option of the table reaches the parameter of that name, with the default of the table when it is not given. *)
Theorem C76_model_options : forall kw t exact_feval c ps, model_creator kw t exact_feval = Some (c, ps) ->
  Forall (obeys kw ps) (model_rules t) /\ (t <> "RF" -> t <> "warpedGP" -> dget "exact_feval" ps = Some (VVal exact_feval)) /\
  (t = "GP" -> dget "sparse" ps = Some (VVal (JBool false))) /\ (t = "sparseGP" -> dget "sparse" ps = Some (VVal (JBool true))).
Proof. exact model_options. Qed.
Print Assumptions C76_model_options.
Theorem C76_acquisition_options : forall kw acquisition_type m c ps, acquisition_creator kw acquisition_type m = Ok (c, ps) ->
  dget "model" ps = Some VModel /\ dget "space" ps = Some VSpace /\ dget "optimizer" ps = Some VOptimizer /\
  (acquisition_type = Some "LCB" \/ acquisition_type = Some "LCB_MCMC" ->
     obeys kw ps ("acquisition_weight", "exploration_weight", num 2) /\ dget "cost_withGradients" ps = Some (VVal JNull)) /\
  (acquisition_type <> Some "LCB" -> acquisition_type <> Some "LCB_MCMC" ->
     obeys kw ps ("acquisition_jitter", "jitter", JNum (Q2Qc (1 # 100))) /\ dget "cost_withGradients" ps = Some VCost).
Proof. exact acquisition_options. Qed.
Print Assumptions C76_acquisition_options.
(** verbosity_model is a named parameter of the constructor, so it is not among the keywords the model is built from: whatever the
    user gives, the model is built with verbose = False. *)
Theorem C76_verbosity_model_refuted : forall given t exact_feval c ps v, model_creator (extra_keywords given) t exact_feval = Some (c, ps) ->
  dget "verbose" ps = Some v -> v = VVal (JBool false).
Proof. exact verbosity_ignored. Qed.
Print Assumptions C76_verbosity_model_refuted.
(** Random forests and warped GPs ignore every option, exact_feval and noise_var included. *)
Theorem C76_no_options_refuted : forall given given' t exact_feval exact_feval', t = "RF" \/ t = "warpedGP" ->
  model_creator (extra_keywords given) t exact_feval = model_creator (extra_keywords given') t exact_feval'.
Proof. exact no_options. Qed.
Print Assumptions C76_no_options_refuted.
Example C76_nonvacuous : exists ps, model_creator (extra_keywords [("ARD", JBool true); ("verbosity_model", JBool true); ("max_iters", num 7)]) "sparseGP" (JBool true) = Some (CGP, ps) /\
  dget "ARD" ps = Some (VVal (JBool true)) /\ dget "max_iters" ps = Some (VVal (num 7)) /\ dget "optimize_restarts" ps = Some (VVal (num 5)) /\
  dget "verbose" ps = Some (VVal (JBool false)).
Proof. eexists. split; [reflexivity|]. repeat split. Qed.
