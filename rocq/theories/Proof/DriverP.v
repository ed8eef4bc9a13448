(** The components built by the driver: C108. *)
From Coq Require Import String List ZArith QArith Qcanon Bool Lia.
From Verif.Model Require Import Py Space Call Config Models Options Driver.
From Verif.Spec Require Import ConfigSpec DriverSpec.
From Verif.Proof Require Import Num ConfigP.
Import ListNotations.
Local Open Scope nat_scope.
Local Open Scope string_scope.
Local Open Scope list_scope.

Lemma jget_ok c k v : jget c k = Ok v <-> find c [k] = Some v.
Proof.
  unfold jget. cbn [find]. destruct c; try (split; discriminate). destruct (dget k items); split; intro H; try discriminate; injection H as <-; reflexivity.
Qed.
Lemma find_two c k k' v : find c [k] = Some v -> find c [k; k'] = find v [k'].
Proof. cbn [find]. destruct c; try discriminate. destruct (dget k items); [|discriminate]. now intros [= ->]. Qed.
Lemma find_split c k k' v : find c [k; k'] = Some v -> exists u, find c [k] = Some u /\ find u [k'] = Some v.
Proof.
  cbn [find]. destruct c; try discriminate. destruct (dget k items) as [u|]; [|discriminate]. intro H. exists u. split; [reflexivity|]. exact H.
Qed.
Lemma others_ddel k d : others k d (ddel k d).
Proof.
  intros k' v. unfold ddel. rewrite filter_In. cbn [fst]. rewrite negb_true_iff. destruct (String.eqb_spec k k'); split; intros [A B]; split; auto; try discriminate; congruence.
Qed.
Lemma without_ok k v t args : without k v = Ok (t, args) -> exists d, v = JDict d /\ dget k d = Some t /\ args = ddel k d.
Proof.
  unfold without. destruct v; try discriminate. destruct (dget k items) eqn:E; [|discriminate]. intros [= <- <-]. eauto.
Qed.
Lemma smem_spec s l : smem s l = true <-> In s l.
Proof.
  unfold smem. rewrite existsb_exists. split.
  - intros (x & I & E). apply String.eqb_eq in E. now subst.
  - intros I. exists s. split; auto. apply String.eqb_refl.
Qed.
Lemma call_defaults l kws : call (defaulted l) 0 kws = Ok tt <-> Forall (fun k => In k l) kws.
Proof.
  unfold call. cbn [firstn Nat.leb negb]. assert (N : names (defaulted l) = l). { unfold names, defaulted. rewrite map_map. cbn. apply map_id. }
  rewrite N. replace (existsb (fun k => smem k []) kws) with false by (induction kws; auto).
  assert (F : forallb (fun p => smem (fst p) [] || smem (fst p) kws || snd p) (defaulted l) = true).
  { apply forallb_forall. intros p I. unfold defaulted in I. apply in_map_iff in I as (s & <- & _). cbn [snd]. apply orb_true_r. }
  rewrite F. cbn [negb]. rewrite Forall_forall. destruct (forallb (fun k => smem k l) kws) eqn:E; cbn [negb].
  - split; [|reflexivity]. intros _ k I. rewrite forallb_forall in E. apply smem_spec, E, I.
  - split; [discriminate|]. intro H. assert (X : forallb (fun k => smem k l) kws = true); [|congruence].
    apply forallb_forall. intros k I. apply smem_spec, H, I.
Qed.

Ltac ifs H := repeat match type of H with context [String.eqb ?n ?s] => destruct (String.eqb_spec n s); [subst|] end.

Lemma model_inv config c args : get_model config = Ok (c, args) ->
  c = CGP /\ exists d, find config ["model"] = Some (JDict d) /\ dget "type" d = Some (JStr "GP") /\ others "type" d args /\
    Forall (fun kv => In (fst kv) gp_parameters) args.
Proof.
  intro H. unfold get_model in H. apply bind_ok in H as (m & Hm & H). apply bind_ok in H as ((t & a) & Hp & H). cbn [fst snd] in H.
  apply bind_ok in H as (k & Hk & H). apply jget_ok in Hm. apply without_ok in Hp as (d & -> & Ht & ->).
  unfold select_model in Hk. destruct t; try discriminate. ifs Hk; try discriminate; injection Hk as <-; cbn [model_from_config] in H; try discriminate.
  apply bind_ok in H as ([] & Hc & H). injection H as <- <-. split; [reflexivity|]. exists d. split; [exact Hm|]. split; [exact Ht|].
  split; [apply others_ddel|]. apply call_defaults in Hc. apply Forall_map in Hc. exact Hc.
Qed.
Lemma get_model_dict config d t : find config ["model"] = Some (JDict d) -> dget "type" d = Some t ->
  get_model config = (c <- select_model t ;;
    match model_from_config c with None => Raise AttributeError | Some c' => _ <- call sig_GPModel 0 (map fst (ddel "type" d)) ;; Ok (c', ddel "type" d) end).
Proof. intros F T. unfold get_model. rewrite (proj2 (jget_ok _ _ _) F). cbn [bind without]. rewrite T. reflexivity. Qed.
Lemma model_builds config d : find config ["model"] = Some (JDict d) -> dget "type" d = Some (JStr "GP") ->
  (forall k v, In (k, v) d -> k = "type" \/ In k gp_parameters) -> exists args, get_model config = Ok (CGP, args).
Proof.
  intros F T P. rewrite (get_model_dict _ _ _ F T). exists (ddel "type" d). cbn [select_model bind model_from_config String.eqb Ascii.eqb Bool.eqb].
  replace (call sig_GPModel 0 (map fst (ddel "type" d))) with (Ok tt); [reflexivity|]. symmetry. apply call_defaults, Forall_map, Forall_forall.
  intros (k & v) I. cbn [fst]. apply others_ddel in I as (I & N). destruct (P k v I); [congruence|assumption].
Qed.
Lemma model_types config d t : find config ["model"] = Some (JDict d) -> dget "type" d = Some (JStr t) ->
  (In t ["GP_MCMC"; "RF"; "warpGP"] -> get_model config = Raise AttributeError) /\
  (~ In t ["GP"; "GP_MCMC"; "RF"; "warpGP"] -> get_model config = Raise PlainException).
Proof.
  intros F T. rewrite (get_model_dict _ _ _ F T). split.
  - intros [<- | [<- | [<- | []]]]; reflexivity.
  - intro N. cbn [select_model]. destruct (String.eqb_spec t "GP"); [subst; exfalso; apply N; now left|].
    destruct (String.eqb_spec t "GP_MCMC"); [subst; exfalso; apply N; right; now left|].
    destruct (String.eqb_spec t "RF"); [subst; exfalso; apply N; right; right; now left|].
    destruct (String.eqb_spec t "warpGP"); [subst; exfalso; apply N; do 3 right; now left|]. reflexivity.
Qed.

Lemma acquisition_inv config a : get_acquisition config = Ok a ->
  exists t d, find config ["acquisition"; "type"] = Some (JStr t) /\ acquisition_built t (ab_class a) /\
    find config ["acquisition"; "jitter"] = Some (ab_jitter a) /\
    find config ["acquisition"; "optimizer"] = Some (JDict d) /\ dget "name" d = Some (ab_optimizer a) /\ others "name" d (ab_options a).
Proof.
  intro H. unfold get_acquisition in H. apply bind_ok in H as (s & Hs & H). apply bind_ok in H as (o & Ho & H). apply bind_ok in H as ((n & r) & Hp & H).
  cbn [fst snd] in H. destruct (existsb _ _); [discriminate|]. apply bind_ok in H as (t & Ht & H). apply bind_ok in H as (c & Hc & H).
  apply bind_ok in H as (c' & Hc' & H). apply bind_ok in H as (j & Hj & H). injection H as <-. cbn [ab_class ab_jitter ab_optimizer ab_options].
  apply jget_ok in Hs. apply jget_ok in Ho. apply jget_ok in Ht. apply jget_ok in Hj. apply without_ok in Hp as (d & -> & Hn & ->).
  unfold select_acquisition in Hc. destruct t as [| |t| | |]; try discriminate. exists t, d.
  rewrite !(find_two _ _ _ _ Hs). split; [exact Ht|]. split; [|split; [exact Hj|split; [exact Ho|split; [exact Hn|apply others_ddel]]]].
  ifs Hc; try discriminate; injection Hc as <-; cbn [acquisition_from_config] in Hc'; try discriminate; injection Hc' as <-; constructor.
Qed.
Lemma get_acquisition_dict config t d n : find config ["acquisition"; "type"] = Some t ->
  find config ["acquisition"; "optimizer"] = Some (JDict d) -> dget "name" d = Some n ->
  (forall k v, In (k, v) d -> ~ In k ["self"; "space"; "optimizer"]) ->
  get_acquisition config = (c <- select_acquisition t ;; c' <- acquisition_from_config c ;;
    match find config ["acquisition"; "jitter"] with Some j => Ok (mk_acq_built c' j n (ddel "name" d)) | None => Raise KeyError end).
Proof.
  intros T O N K. apply find_split in T as (s & Fs & T). rewrite !(find_two _ _ _ _ Fs) in *. unfold get_acquisition.
  rewrite (proj2 (jget_ok _ _ _) Fs). cbn [bind]. rewrite (proj2 (jget_ok _ _ _) O). cbn [bind without]. rewrite N. cbn [bind fst snd].
  replace (existsb _ _) with false.
  - rewrite (proj2 (jget_ok _ _ _) T). cbn [bind]. destruct (select_acquisition t) as [c|]; [|reflexivity]. cbn [bind].
    destruct (acquisition_from_config c); [|reflexivity]. cbn [bind]. unfold jget. cbn [find] in T |- *. destruct s; try discriminate.
    destruct (dget "jitter" items); reflexivity.
  - symmetry. apply not_true_iff_false. intro E. apply existsb_exists in E as (k & I & E). apply smem_spec in E.
    apply in_map_iff in I as ((k' & v) & <- & I). apply others_ddel in I as (I & _). exact (K _ _ I E).
Qed.
Lemma acquisition_builds config t c d n j : find config ["acquisition"; "type"] = Some (JStr t) -> acquisition_built t c ->
  find config ["acquisition"; "jitter"] = Some j -> find config ["acquisition"; "optimizer"] = Some (JDict d) -> dget "name" d = Some n ->
  (forall k v, In (k, v) d -> ~ In k ["self"; "space"; "optimizer"]) ->
  exists options, get_acquisition config = Ok (mk_acq_built c j n options).
Proof.
  intros T B J O N K. rewrite (get_acquisition_dict _ _ _ _ T O N K), J. exists (ddel "name" d). destruct B; reflexivity.
Qed.
Lemma acquisition_types config t d n : find config ["acquisition"; "type"] = Some (JStr t) ->
  find config ["acquisition"; "optimizer"] = Some (JDict d) -> dget "name" d = Some n ->
  (forall k v, In (k, v) d -> ~ In k ["self"; "space"; "optimizer"]) ->
  (In t ["LCB"; "LCB_MCMC"; "LP"] -> get_acquisition config = Raise AttributeError) /\
  (t = "ES" -> get_acquisition config = Raise NotImplementedError) /\
  (~ In t ["EI"; "EI_MCMC"; "LCB"; "LCB_MCMC"; "MPI"; "MPI_MCMC"; "LP"; "ES"] -> get_acquisition config = Raise PlainException).
Proof.
  intros T O N K. rewrite (get_acquisition_dict _ _ _ _ T O N K). split; [intros [<- | [<- | [<- | []]]]; reflexivity|]. split; [intros ->; reflexivity|].
  intro X. cbn [select_acquisition].
  repeat match goal with |- context [String.eqb t ?s] => destruct (String.eqb_spec t s); [subst; exfalso; apply X; cbn; tauto|] end. reflexivity.
Qed.

Lemma call_evaluator e kws : call (sig_evaluator e) 1 kws = Ok tt <->
  Forall (fun k => k = "batch_size") kws /\ (e = ESequential \/ In "batch_size" kws).
Proof.
  unfold call, sig_evaluator, names. cbn [map fst firstn length Nat.leb negb].
  destruct (forallb (fun k => smem k ["acquisition"; "batch_size"]) kws) eqn:A; cbn [negb].
  2:{ split; [discriminate|]. intros (F & _). assert (X : forallb (fun k => smem k ["acquisition"; "batch_size"]) kws = true); [|congruence].
      apply forallb_forall. intros k I. rewrite Forall_forall in F. rewrite (F k I). reflexivity. }
  destruct (existsb (fun k => smem k ["acquisition"]) kws) eqn:B.
  { split; [discriminate|]. intros (F & _). apply existsb_exists in B as (k & I & E). rewrite Forall_forall in F. rewrite (F k I) in E. discriminate. }
  assert (F : Forall (fun k => k = "batch_size") kws).
  { apply Forall_forall. intros k I. rewrite forallb_forall in A. specialize (A k I). apply smem_spec in A. destruct A as [<- | [<- | []]]; [|reflexivity].
    exfalso. assert (X : existsb (fun k => smem k ["acquisition"]) kws = true); [|congruence]. apply existsb_exists. exists "acquisition". auto. }
  cbn [forallb fst snd]. change (smem "acquisition" ["acquisition"]) with true. change (smem "batch_size" ["acquisition"]) with false. cbn [orb andb].
  rewrite andb_true_r. destruct (smem "batch_size" kws) eqn:M.
  - cbn. split; [|reflexivity]. intros _. split; [exact F|]. right. now apply smem_spec.
  - destruct e; cbn; split; try discriminate; auto; try (intros (_ & [X | X]); [discriminate|apply smem_spec in X; congruence]).
Qed.
Lemma evaluator_inv config e args : get_evaluator config = Ok (e, args) ->
  exists t d, find config ["acquisition"; "evaluator"] = Some (JDict d) /\ dget "type" d = Some (JStr t) /\ evaluator_named t e /\ others "type" d args /\
    Forall (fun kv => fst kv = "batch_size") args /\ (e = ESequential \/ exists b, In ("batch_size", b) args).
Proof.
  intro H. unfold get_evaluator in H. apply bind_ok in H as (s & Hs & H). apply bind_ok in H as (o & Ho & H). apply bind_ok in H as ((n & r) & Hp & H).
  cbn [fst snd] in H. apply bind_ok in H as (c & Hc & H). apply bind_ok in H as ([] & Hk & H). injection H as <- <-.
  apply jget_ok in Hs. apply jget_ok in Ho. apply without_ok in Hp as (d & -> & Hn & ->).
  unfold select_evaluator in Hc. destruct n as [| |t| | |]; try discriminate. exists t, d. rewrite (find_two _ _ _ _ Hs).
  split; [exact Ho|]. split; [exact Hn|]. apply call_evaluator in Hk as (F & M). apply Forall_map in F.
  split; [|split; [apply others_ddel|split; [exact F|]]].
  - ifs Hc; try discriminate; injection Hc as <-; constructor.
  - destruct M as [->|M]; [now left|]. right. apply in_map_iff in M as ((k & b) & E & I). cbn [fst] in E. subst. eauto.
Qed.
Lemma evaluator_builds config t e d : find config ["acquisition"; "evaluator"] = Some (JDict d) -> dget "type" d = Some (JStr t) -> evaluator_named t e ->
  (forall k v, In (k, v) d -> k = "type" \/ k = "batch_size") -> (e = ESequential \/ exists b, In ("batch_size", b) d) ->
  exists args, get_evaluator config = Ok (e, args).
Proof.
  intros F T N K B. exists (ddel "type" d). apply find_split in F as (s & Fs & F). unfold get_evaluator. rewrite (proj2 (jget_ok _ _ _) Fs). cbn [bind].
  rewrite (proj2 (jget_ok _ _ _) F). cbn [bind without]. rewrite T. cbn [bind fst snd].
  replace (select_evaluator (JStr t)) with (Ok (A := eclass) e) by (destruct N; reflexivity). cbn [bind].
  replace (call (sig_evaluator e) 1 (map fst (ddel "type" d))) with (Ok tt); [reflexivity|]. symmetry. apply call_evaluator. split.
  - apply Forall_map, Forall_forall. intros (k & v) I. apply others_ddel in I as (I & X). cbn [fst]. destruct (K k v I); congruence.
  - destruct B as [B|(b & B)]; [now left|right]. apply in_map_iff. exists ("batch_size", b). split; [reflexivity|]. apply others_ddel. split; [exact B|discriminate].
Qed.

Lemma same_section config config' k : find config [k] = find config' [k] -> dict_at config [] -> dict_at config' [] -> jget config k = jget config' k.
Proof.
  intros E (d & [= ->]) (d' & [= ->]). unfold jget. cbn [find] in E. destruct (dget k d), (dget k d'); congruence.
Qed.
Lemma untouched new config k : proper new -> parser (Some new) = Ok config -> find new [k] = None -> jget config k = jget default_config k.
Proof.
  intros P H N. cbn [parser] in H. assert (D : dict_at new []).
  { destruct new; try discriminate. exists items. reflexivity. }
  apply same_section.
  - destruct (update_paths [k] new default_config config P H) as (_ & _ & _ & Q). apply Q; [exact N|].
    intros q s E (v & Fv & L). destruct q as [|a q]; [cbn in Fv; injection Fv as <-; destruct D as (d & [= ->]); discriminate|].
    injection E as <- E. apply eq_sym, app_eq_nil in E as (-> & ->). congruence.
  - destruct (update_paths [] new default_config config P H) as (_ & Q & _). exact (Q D).
  - eexists. reflexivity.
Qed.
Lemma untouched_components new config : proper new -> parser (Some new) = Ok config ->
  (find new ["model"] = None -> get_model config = get_model default_config) /\
  (find new ["acquisition"] = None -> get_acquisition config = get_acquisition default_config /\ get_evaluator config = get_evaluator default_config).
Proof.
  intros P H. split; intro N; pose proof (untouched _ _ _ P H N) as E.
  - unfold get_model. now rewrite E.
  - unfold get_acquisition, get_evaluator. now rewrite E.
Qed.

Lemma div60 (m e : Qc) : (m <= e / z2q 60)%Qc <-> (z2q 60 * m <= e)%Qc.
Proof.
  assert (P : (0 < z2q 60)%Qc) by reflexivity. assert (N : z2q 60 <> 0%Qc) by discriminate.
  assert (D : ((e / z2q 60) * z2q 60)%Qc = e) by (field; exact N). split; intro H.
  - rewrite <- D, (Qcmult_comm (z2q 60)). apply Qcmult_le_compat_r; [exact H|now apply Qclt_le_weak].
  - rewrite <- D, (Qcmult_comm (z2q 60)) in H. apply Qcmult_lt_0_le_reg_r in H; [exact H|exact P].
Qed.
Lemma check_stop_spec config mi mt iters elapsed converged :
  find config ["resources"; "maximum-iterations"] = Some (JNum mi) -> find config ["resources"; "max-run-time"] = Some (JNum mt) ->
  exists b, check_stop config iters elapsed converged = Ok b /\
    (b = true <-> converged = false \/ (mi <= iters)%Qc \/ (z2q 60 * mt <= elapsed)%Qc).
Proof.
  intros F1 F2. apply find_split in F1 as (r & Fr & F1). rewrite (find_two _ _ _ _ Fr) in F2. unfold check_stop.
  rewrite (proj2 (jget_ok _ _ _) Fr). cbn [bind]. rewrite (proj2 (jget_ok _ _ _) F1). cbn [bind limit_reached].
  rewrite (proj2 (jget_ok _ _ _) F2). cbn [bind limit_reached]. eexists. split; [reflexivity|].
  rewrite !orb_true_iff, negb_true_iff, !qcle_spec, div60. tauto.
Qed.

Lemma no_limits config iters elapsed converged : find config ["resources"; "max-run-time"] = Some (JStr "NA") ->
  run_time_limit config = Ok None /\
  (find config ["resources"; "maximum-iterations"] = Some (JStr "NA") -> check_stop config iters elapsed converged = Ok (negb converged)) /\
  (forall mi, find config ["resources"; "maximum-iterations"] = Some (JNum mi) ->
     exists b, check_stop config iters elapsed converged = Ok b /\ (b = true <-> converged = false \/ (mi <= iters)%Qc)).
Proof.
  intro F2. apply find_split in F2 as (r & Fr & F2). unfold run_time_limit, check_stop. rewrite (proj2 (jget_ok _ _ _) Fr). cbn [bind].
  rewrite (proj2 (jget_ok _ _ _) F2). cbn [bind limit_reached]. split; [reflexivity|]. split; [intro F1|intros mi F1]; rewrite (find_two _ _ _ _ Fr) in F1;
    rewrite (proj2 (jget_ok _ _ _) F1); cbn [bind limit_reached].
  - cbn. now rewrite !orb_false_r.
  - eexists. split; [reflexivity|]. rewrite orb_false_r, orb_true_iff, negb_true_iff, qcle_spec. tauto.
Qed.
Lemma bad_limit config l iters elapsed converged : find config ["resources"; "maximum-iterations"] = Some l ->
  (forall q, l <> JNum q) -> (forall b, l <> JBool b) -> l <> JStr "NA" -> check_stop config iters elapsed converged = Raise TypeError.
Proof.
  intros F1 N1 N2 N3. apply find_split in F1 as (r & Fr & F1). unfold check_stop. rewrite (proj2 (jget_ok _ _ _) Fr). cbn [bind]. rewrite (proj2 (jget_ok _ _ _) F1). cbn [bind].
  destruct l as [d|l|s|q|b|]; cbn [limit_reached bind]; try reflexivity; [|destruct (N1 q eq_refl)|destruct (N2 b eq_refl)].
  destruct (String.eqb_spec s "NA") as [->|]; [now contradiction N3 | reflexivity].
Qed.
Lemma some_limit config l : find config ["resources"; "max-run-time"] = Some (JNum l) -> run_time_limit config = Ok (Some (JNum l)).
Proof.
  intro F2. apply find_split in F2 as (r & Fr & F2). unfold run_time_limit. rewrite (proj2 (jget_ok _ _ _) Fr). cbn [bind].
  now rewrite (proj2 (jget_ok _ _ _) F2).
Qed.
