(** Anchor points, local optimization and the acquisition optimizer: inversion lemmas and C19, C21, C24, C25. *)
From Coq Require Import String List ZArith QArith Qcanon Bool Lia Permutation Sorting.Sorted.
From Verif.Model Require Import Py Space Design Optim.
From Verif.Spec Require Import SpaceSpec DesignSpec ContextSpec SuggestSpec.
From Verif.Proof Require Import Num SpaceP RoundP ConstructP SpaceMain DesignP DesignMain ContextP ContextMain AnchorP.
Import ListNotations.
Local Open Scope nat_scope.

Lemma rbind_ok {A B} (r : run A) (k : A -> run B) b : rbind r k = Some (Ok b) -> exists a, r = Some (Ok a) /\ k a = Some (Ok b).
Proof. unfold rbind. destruct r as [[a|e]|]; try discriminate. eauto. Qed.

(** ---- sort_unique ---- *)
Lemma veqb_eq a : forall b, veqb a b = true <-> a = b.
Proof.
  induction a as [|x a IH]; intros [|y b]; simpl; split; try discriminate; auto.
  - intro H. apply andb_true_iff in H as (H1 & H2). apply qceq_spec in H1. apply IH in H2. congruence.
  - intros [= -> ->]. apply andb_true_iff. split; [apply qceq_spec; auto|apply IH; auto].
Qed.
Lemma vmem_spec x l : vmem x l = true <-> In x l.
Proof.
  unfold vmem. rewrite existsb_exists. split.
  - intros (y & Hy & E). apply veqb_eq in E. congruence.
  - intro H. exists x. split; auto. apply veqb_eq. auto.
Qed.
Lemma vmem_false x l : vmem x l = false <-> ~ In x l.
Proof. rewrite <- vmem_spec. destruct (vmem x l); split; congruence. Qed.
Lemma insert_lex_in x l y : In y (insert_lex x l) <-> y = x \/ In y l.
Proof.
  induction l as [|h t IH]; simpl; [intuition|]. destruct (veqb x h) eqn:E.
  - apply veqb_eq in E. subst. simpl. intuition.
  - destruct (lexlt x h); simpl; [intuition|]. rewrite IH. intuition.
Qed.
Lemma sort_unique_in X y : In y (sort_unique X) <-> In y X.
Proof. induction X as [|x X IH]; simpl; [tauto|]. rewrite insert_lex_in, IH. intuition. Qed.
Lemma sort_unique_ne X : X <> [] -> sort_unique X <> [].
Proof. destruct X as [|x X]; [congruence|]. intros _ E. assert (In x (sort_unique (x :: X))) by (apply sort_unique_in; left; auto). rewrite E in H. destruct H. Qed.

(** ---- context managers of good contexts ---- *)
Section Good.
  Variables (ds : list descr) (cs : option (list constr)) (sp : space) (oc : option context) (cm : ctxmgr).
  Hypothesis D : design_space ds cs = Ok sp.
  Hypothesis W : Forall wf_kind (kinds sp).
  Hypothesis G : good_context sp oc.
  Hypothesis E : context_manager sp oc = Ok cm.

  Lemma good_facts : space_facts sp. Proof. eapply design_space_facts; eauto. Qed.
  Lemma good_roundable : roundable (kinds sp).
  Proof. clear E. destruct oc; simpl in G; [left; tauto|tauto]. Qed.
  Lemma good_sampleable : sampleable sp.
  Proof. clear E. destruct oc; simpl in G; [left; tauto|tauto]. Qed.

  Lemma oc_cases : (exists c, oc = Some c) \/ oc = None.
  Proof. clear. destruct oc; eauto. Qed.
  Lemma good_some c : oc = Some c -> bandit_free (kinds sp) /\ kinds sp <> [] /\ distinct_names sp /\ is_dict c /\ names_known sp c /\
              values_ok valid_value sp c.
  Proof. intro O. pose proof G as G'. rewrite O in G'. exact G'. Qed.
  Lemma bandit_no_context : has_bandit sp = true -> oc = None.
  Proof.
    intro HB. destruct oc_cases as [(c & O)|O]; auto. destruct (good_some c O) as (B & _). destruct (sf_b _ good_facts HB) as (F & NE).
    destruct (kinds sp) as [|k ks]; [congruence|]. inversion B; inversion F; subst. congruence.
  Qed.
  Lemma good_cm_some c : oc = Some c -> exists vs es, lay sp /\ cm_ok sp c cm vs es.
  Proof.
    intro O. destruct (good_some c O) as (B & NK & DN & U & KN & VO). pose proof E as E0. rewrite O in E0.
    pose proof (lay_space _ _ _ D B) as L.
    destruct (context_manager_ok sp (Some c) L W DN KN) as (cm' & vs & es & E' & C).
    { intros n x v H1 H2 H3. apply valid_encodable. eapply VO; eauto. }
    rewrite E0 in E'. injection E' as <-. eauto.
  Qed.
  Lemma good_cm_none : oc = None -> exists bs, get_bounds sp = Ok bs /\
    cm = mk_cm sp [] [] [] (seq 0 (model_dimensionality sp)) bs (seq 0 (length (sp_config_expanded sp))).
  Proof.
    intro O. pose proof E as E0. rewrite O in E0. unfold context_manager in E0. apply bind_ok in E0 as (bs & Hb & E'). injection E' as <-. eauto.
  Qed.
  Lemma good_space : cm_space cm = sp.
  Proof.
    destruct oc_cases as [(c & O)|O].
    - destruct (good_cm_some c O) as (vs & es & _ & C). apply (co_space _ _ _ _ _ C).
    - destruct good_cm_none as (bs & _ & ->); auto.
  Qed.

  Lemma expand_row_full v row : expand_row cm v = Ok row ->
    exists v', length v' = length (cm_noncontext_index cm) /\ expand_row cm v' = Ok row /\
      (length v = length (cm_noncontext_index cm) -> v' = v).
  Proof.
    intro H. destruct (Nat.eq_dec (length v) (length (cm_noncontext_index cm))) as [Q|Q]; [eauto|].
    unfold expand_row in H. destruct (Nat.eqb_spec (length v) (length (cm_noncontext_index cm))); [congruence|].
    destruct v as [|a [|b t]]; try discriminate. exists (repeat a (length (cm_noncontext_index cm))).
    rewrite repeat_length. split; auto. split; [|intro; congruence]. unfold expand_row. rewrite repeat_length, Nat.eqb_refl. exact H.
  Qed.

  Lemma expand_good v row : expand_row cm v = Ok row -> length row = model_dimensionality sp /\ carries_opt sp oc row.
  Proof.
    intro H. split.
    - unfold expand_row in H. apply bind_ok in H as (x' & _ & H). injection H as <-. rewrite !set_cols_length, repeat_length. f_equal. apply good_space.
    - destruct oc_cases as [(c & O)|O]; [|rewrite O; exact I]. destruct (good_cm_some c O) as (vs & es & L & C). rewrite O. simpl.
      destruct (good_some c O) as (B & NK & DN & U & KN & VO).
      destruct (expand_row_full _ _ H) as (v' & Lv & H' & _).
      destruct (expand_ok _ _ _ _ _ L DN U C v' Lv) as (row' & E1 & E2 & E3 & E4). rewrite H' in E1. injection E1 as <-.
      eapply carries_iff; eauto.
  Qed.

  Lemma good_no_context_full v : oc = None -> length v = model_dimensionality sp -> expand_row cm v = Ok v.
  Proof.
    intros O L. destruct (good_cm_none O) as (bs & Hb & ->). unfold expand_row. cbn [cm_noncontext_index cm_space cm_context_index cm_context_value].
    rewrite seq_length, L, Nat.eqb_refl. cbn [bind set_cols]. f_equal. rewrite <- L.
    apply nth_error_ext. intro j.
    pose proof (set_cols_same (seq 0 (length v)) (repeat q0 (length v)) v (seq_NoDup _ _)) as Q.
    assert (F : Forall (fun d => d < length (repeat q0 (length v))) (seq 0 (length v))).
    { apply Forall_forall. intros x Hx. apply in_seq in Hx. rewrite repeat_length. lia. }
    specialize (Q F (eq_sym (seq_length _ _))). rewrite <- (cols_seq v) in Q.
    destruct (Nat.lt_ge_cases j (length v)) as [Hj|Hj].
    - apply (map_eq_in _ _ (seq 0 (length v))); [exact Q|apply in_seq; lia].
    - transitivity (@None Qc); [apply nth_error_None; rewrite set_cols_length, repeat_length; lia|symmetry; apply nth_error_None; lia].
  Qed.

  (** the space the anchors are drawn in: it exists, has the kinds of the free variables and the same constraints *)
  Definition anchor_kinds : list kind := match oc with Some c => free_kinds sp c | None => kinds sp end.
  Lemma good_anchor_space : exists ds' cs' sub, anchor_space sp (Some cm) = Ok sub /\ design_space ds' cs' = Ok sub /\
    kinds sub = anchor_kinds /\ sampleable sub /\ sp_constraints sub = sp_constraints sp /\
    (cs = None -> cs' = None) /\ has_bandit sub = has_bandit sp /\ (has_bandit sp = true -> sub = sp).
  Proof.
    assert (HB : has_bandit sp = true \/ has_bandit sp = false) by (destruct (has_bandit sp); auto). destruct HB as [HB|HB].
    - (* bandit: no context *)
      pose proof (bandit_no_context HB) as O.
      exists ds, cs, sp. unfold anchor_space. rewrite HB. unfold anchor_kinds. rewrite O. repeat split; auto. apply good_sampleable.
    - assert (B : bandit_free (kinds sp)) by (apply (sf_nb _ good_facts); auto).
      destruct (get_bounds_spec sp good_facts W B) as (bs & Hb & _).
      assert (CN : cs = None -> sp_constraints sp = None) by (intros ->; rewrite (design_space_constraints _ _ _ D); reflexivity).
      unfold anchor_kinds. destruct oc_cases as [(c & O)|O]; rewrite O.
      + destruct (good_cm_some c O) as (vs & es & L & C).
        destruct (anchor_space_context _ _ _ _ _ _ _ D L HB C) as (ds' & sub & S1 & S2 & S3).
        assert (BS : bandit_free (kinds sub)).
        { rewrite S3. unfold free_kinds, bandit_free, kinds in *. rewrite Forall_map in *. rewrite Forall_forall in *. intros v Hv. apply B. apply filter_In in Hv; tauto. }
        exists ds', (sp_constraints sp), sub. split; auto. split; auto. split; [exact S3|]. split; [left; auto|]. split; [|split; [|split]]; auto.
        * eapply constraints_opt; eauto.
        * rewrite HB. apply bandit_free_has; auto. eapply design_space_facts; eauto.
        * intro; congruence.
      + destruct (anchor_space_none _ _ _ _ D B HB Hb) as (cm' & ds' & sub & S0 & S1 & S2 & S3). pose proof E as E0. rewrite O in E0. pose proof (eq_trans (eq_sym E0) S0) as Q0. injection Q0 as <-.
        exists ds', (sp_constraints sp), sub. split; auto. split; auto. split; [exact S3|]. split; [left; rewrite S3; auto|]. split; [|split; [|split]]; auto.
        * eapply constraints_opt; eauto.
        * rewrite HB. apply bandit_free_has; [eapply design_space_facts; eauto|rewrite S3; auto].
        * intro; congruence.
  Qed.

  Lemma anchor_kinds_Forall (P : kind -> Prop) : Forall P (kinds sp) -> Forall P anchor_kinds.
  Proof.
    clear G E. unfold anchor_kinds. destruct oc as [c|]; auto. unfold free_kinds, kinds. rewrite !Forall_map, !Forall_forall. intros H v Hv. apply H. apply filter_In in Hv; tauto.
  Qed.

  Lemma add_context_good Z W' : Forall (design_point anchor_kinds) Z -> Z <> [] -> anchor_add_context sp (Some cm) Z = Ok W' ->
    Forall (fun x => design_point (kinds sp) x /\ carries_opt sp oc x) W' /\ length W' = length Z.
  Proof.
    intros HZ NZ H. unfold anchor_add_context in H. destruct (has_bandit sp) eqn:HB.
    - injection H as <-. split; auto. pose proof (bandit_no_context HB) as O.
      unfold anchor_kinds in HZ. rewrite O in HZ |- *. eapply Forall_impl; [|exact HZ]. intros; split; auto. exact I.
    - unfold expand_vector in H. rewrite atleast_2d_ne in H by auto. split; [|apply mapM_length in H; auto].
      apply mapM_ok_Forall2 in H. clear NZ. induction H as [|z w Z W' Hw H IH]; [constructor|]. inversion HZ; subst. constructor; auto.
      destruct (expand_good _ _ Hw) as (Lw & Kw). split; auto. unfold anchor_kinds in *.
      assert (B : bandit_free (kinds sp)) by (apply (sf_nb _ good_facts); auto).
      pose proof (lay_space _ _ _ D B) as L.
      destruct oc_cases as [(c & O)|O]; rewrite O in H2, Kw.
      + destruct (good_cm_some c O) as (vs & es & _ & C). simpl in Kw. destruct (good_some c O) as (_ & NK & DN & U & KN & VO).
        assert (Lz : length z = length (cm_noncontext_index cm)).
        { rewrite (co_nci _ _ _ _ _ C). assert (Wf : Forall wf_kind (free_kinds sp c)) by (pose proof (anchor_kinds_Forall wf_kind W) as Q0; unfold anchor_kinds in Q0; rewrite O in Q0; exact Q0).
          rewrite (design_point_length _ _ Wf H2). unfold total_width, free_kinds. pose proof (ly_len _ L) as LL. clear -LL.
          induction (sp_xvars sp) as [|v t IH]; auto. inversion LL; subst. simpl. destruct (free_var c v); simpl; auto. rewrite app_length. simpl. f_equal; auto. }
        destruct (expand_ok _ _ _ _ _ L DN U C z Lz) as (row & E1 & E2 & E3 & E4). rewrite Hw in E1. injection E1 as <-.
        apply lay_cols_blocks; auto. apply Forall_forall. intros v Hv.
        destruct (free_var c v) eqn:Fv.
        * rewrite (co_nci _ _ _ _ _ C) in E3.
          assert (Q : Forall (fun v => exists b, valid_block (x_kind v) b /\ map (nth_error w) (x_idx_mod v) = map Some b) (filter (free_var c) (sp_xvars sp))).
          { eapply blocks_to_cols; [|exact H2|exact E3]. intros v0 b Hv0 Vb.
            apply filter_In in Hv0 as (Hv0 & _). pose proof (ly_len _ L) as LL. rewrite Forall_forall in LL. rewrite (LL v0 Hv0).
            apply valid_block_width; auto. unfold kinds in W. rewrite Forall_map, Forall_forall in W. auto. }
          rewrite Forall_forall in Q. apply Q. apply filter_In. auto.
        * apply free_var_false in Fv. apply in_map_iff in Fv as ((n & x) & Nn & Hn). simpl in Nn.
          destruct (Kw n x v Hn Hv (eq_sym Nn)) as (b & B1 & B2). exists b. split; auto. eapply encodes_valid; eauto.
      + assert (Lz : length z = model_dimensionality sp).
        { rewrite (design_point_length _ _ W H2). symmetry. apply model_dim_width. apply good_facts. }
        rewrite (good_no_context_full z O Lz) in Hw. injection Hw as <-. exact H2.
  Qed.
End Good.

(** ---- duplicates ---- *)
Lemma zip_one sp x Z : zip_inputs sp [x] = Ok Z -> exists t, Z = [t].
Proof.
  unfold zip_inputs. destruct (has_bandit sp); [intros [= <-]; simpl; eauto|]. simpl. destruct (model_to_objective sp x); [|discriminate].
  simpl. intros [= <-]. eauto.
Qed.
Lemma zip_tuple_ok sp x t : zip_and_tuple sp x = Ok t <-> user_form sp x t.
Proof.
  unfold zip_and_tuple, user_form. split.
  - intro H. apply bind_ok in H as (Z & HZ & H). injection H as <-. destruct (zip_one _ _ _ HZ) as (t & ->). simpl. rewrite app_nil_r. exact HZ.
  - intros ->. simpl. rewrite app_nil_r. reflexivity.
Qed.
Lemma user_form_unique sp x t t' : user_form sp x t -> user_form sp x t' -> t = t'.
Proof. unfold user_form. congruence. Qed.
Lemma is_dup_false odm x : is_dup odm x = Ok false <-> unknown odm x.
Proof.
  destruct odm as [dm|]; simpl; [|split; auto]. unfold is_unzipped_x_duplicate. split.
  - intro H. apply bind_ok in H as (t & Ht & H). injection H as H. exists t. split; [apply zip_tuple_ok; auto|]. apply vmem_false. exact H.
  - intros (t & Ht & N). apply zip_tuple_ok in Ht. rewrite Ht. cbn [bind]. f_equal. apply vmem_false. exact N.
Qed.
Lemma is_dup_true odm x : is_dup odm x = Ok true <-> exists dm t, odm = Some dm /\ user_form (dm_space dm) x t /\ In t (dm_points dm).
Proof.
  destruct odm as [dm|]; simpl.
  - unfold is_unzipped_x_duplicate. split.
    + intro H. apply bind_ok in H as (t & Ht & H). injection H as H. exists dm, t. split; auto. split; [apply zip_tuple_ok; auto|]. apply vmem_spec. exact H.
    + intros (dm' & t & [= <-] & Ht & N). apply zip_tuple_ok in Ht. rewrite Ht. cbn [bind]. f_equal. apply vmem_spec. exact N.
  - split; [discriminate|]. intros (dm & t & H & _). discriminate.
Qed.
Lemma is_dup_true_known odm x : is_dup odm x = Ok true -> ~ unknown odm x.
Proof. intros H N. apply is_dup_false in N. congruence. Qed.
Lemma is_dup_total odm x : zippable odm x <-> exists b, is_dup odm x = Ok b.
Proof.
  destruct odm as [dm|]; simpl.
  - unfold is_unzipped_x_duplicate. split.
    + intros (t & Ht). apply zip_tuple_ok in Ht. rewrite Ht. simpl. eauto.
    + intros (b & H). apply bind_ok in H as (t & Ht & _). exists t. apply zip_tuple_ok. auto.
  - split; eauto.
Qed.
Lemma filter_new_selects odm X : forall V, filter_new odm X = Ok V -> selects (unknown odm) X V.
Proof.
  induction X as [|x X IH]; simpl; intros V H; [injection H as <-; constructor|].
  apply bind_ok in H as (d & Hd & H). apply bind_ok in H as (r & Hr & H). injection H as <-. destruct d.
  - apply selects_skip; auto. apply is_dup_true_known. auto.
  - apply selects_take; auto. apply is_dup_false. auto.
Qed.
Lemma filter_new_total odm X : Forall (zippable odm) X -> exists V, filter_new odm X = Ok V.
Proof.
  induction 1 as [|x X Hx H (V & IH)]; [simpl; eauto|]. simpl. apply is_dup_total in Hx as (b & ->). simpl. rewrite IH. simpl. eauto.
Qed.
Lemma selects_incl {A} (P : A -> Prop) l l' : selects P l l' -> forall a, In a l' -> In a l /\ P a.
Proof. induction 1 as [|a l l' Pa H IH|a l l' Pa H IH]; simpl; intros b Hb; [tauto| |]. - destruct Hb as [->|Hb]; auto. apply IH in Hb. tauto. - apply IH in Hb; tauto. Qed.
Lemma selects_len {A} (P : A -> Prop) l l' : selects P l l' -> length l' <= length l.
Proof. induction 1; simpl; lia. Qed.
Lemma selects_all_true {A} (P : A -> Prop) l l' : (forall a, P a) -> selects P l l' -> l' = l.
Proof. intros H. induction 1; auto; [congruence|]. exfalso; auto. Qed.

(** ---- sorting ---- *)
Lemma StronglySorted_app_inv {A} (R : A -> A -> Prop) l l' : StronglySorted R (l ++ l') ->
  StronglySorted R l /\ StronglySorted R l' /\ forall a b, In a l -> In b l' -> R a b.
Proof.
  induction l as [|x l IH]; simpl; intro H; [split; [constructor|]; split; auto; tauto|].
  inversion H as [|? ? H1 H2]; subst. destruct (IH H1) as (I1 & I2 & I3). rewrite Forall_app in H2. destruct H2 as (F1 & F2).
  split; [constructor; auto|]. split; auto. intros a b [<-|Ha] Hb; auto. rewrite Forall_forall in F2. auto.
Qed.
Lemma NoDup_app_l {A} (l l' : list A) : NoDup (l ++ l') -> NoDup l.
Proof. induction l as [|a l IH]; simpl; intro H; [constructor|]. inversion H; subst. constructor; auto. intro Q. apply H2. apply in_or_app; auto. Qed.
Lemma best_of_argsort V s p k A : sorting_perm s p -> mapM (get V) (firstn k p) = Ok A -> best_of V s A.
Proof.
  intros (P & S) H. exists (firstn k p). pose proof (Permutation_NoDup (Permutation_sym P) (seq_NoDup _ _)) as ND.
  pose proof (firstn_skipn k p) as FS. rewrite <- FS in S, ND. apply StronglySorted_app_inv in S as (S1 & S2 & S3).
  split; [eapply NoDup_app_l; eauto|]. split; [|split]; auto.
  - clear -H. revert A H. induction (firstn k p) as [|i l IH]; simpl; intros A H; [injection H as <-; auto|].
    apply bind_ok in H as (a & Ha & H). apply bind_ok in H as (t & Ht & H). injection H as <-. simpl. rewrite (IH _ Ht). f_equal.
    unfold get in Ha. destruct (nth_error V i); congruence.
  - intros i j Hi Hj Nj. apply S3; auto. assert (In j p). { eapply Permutation_in; [apply Permutation_sym, P|]. apply in_seq. lia. }
    rewrite <- FS in H0. apply in_app_or in H0 as [?|?]; tauto.
Qed.
Lemma mapM_get_total {A} (V : list A) l : Forall (fun i => i < length V) l -> exists B, mapM (get V) l = Ok B /\ length B = length l /\ Forall (fun b => In b V) B.
Proof.
  induction 1 as [|i l Hi H (B & I1 & I2 & I3)]; [exists []; auto|]. destruct (nth_error V i) as [a|] eqn:E; [|apply nth_error_None in E; lia].
  exists (a :: B). cbn [mapM]. rewrite (get_some _ _ _ E). cbn [bind]. rewrite I1. cbn [bind]. simpl. split; auto. split; [congruence|]. constructor; auto. eapply nth_error_In; eauto.
Qed.
Lemma mapM_get_in {A} (V : list A) l B : mapM (get V) l = Ok B -> forall b, In b B -> In b V.
Proof.
  revert B. induction l as [|i l IH]; simpl; intros B H b Hb; [injection H as <-; destruct Hb|].
  apply bind_ok in H as (a & Ha & H). apply bind_ok in H as (t & Ht & H). injection H as <-. destruct Hb as [<-|Hb]; eauto.
  unfold get in Ha. destruct (nth_error V i) eqn:E; [|discriminate]. injection Ha as <-. eapply nth_error_In; eauto.
Qed.

(** ---- anchor_get ---- *)
Lemma anchor_get_inv sp design ns g scores k odm u ocm A : anchor_get sp design ns g scores k odm u ocm = Some (Ok A) ->
  exists W V s, anchor_candidates sp design ns g u ocm = Some (Ok W) /\ selects (unknown odm) W V /\ V <> [] /\
    scores V = Ok s /\ mapM (get V) (firstn (Nat.min (length s) k) (g_argsort g s)) = Ok A.
Proof.
  intro H. unfold anchor_get in H. apply rbind_ok in H as (W & HW & H). injection H as H. apply bind_ok in H as (V & HV & H).
  exists W, V. destruct V as [|v V]; [discriminate|]. apply bind_ok in H as (s & Hs & H). exists s. split; auto.
  split; [apply filter_new_selects; auto|]. split; [discriminate|]. auto.
Qed.
Lemma anchor_get_in sp design ns g scores k odm u ocm A : anchor_get sp design ns g scores k odm u ocm = Some (Ok A) ->
  exists W, anchor_candidates sp design ns g u ocm = Some (Ok W) /\ forall x, In x A -> In x W /\ unknown odm x.
Proof.
  intro H. apply anchor_get_inv in H as (W & V & s & H1 & H2 & H3 & H4 & H5). exists W. split; auto. intros x Hx.
  eapply selects_incl; eauto. eapply mapM_get_in; eauto.
Qed.

Lemma anchor_get_main sp design ns g scores k odm u ocm W : anchor_candidates sp design ns g u ocm = Some (Ok W) ->
  argsorts (g_argsort g) -> Forall (zippable odm) W ->
  exists V, selects (unknown odm) W V /\
    (V = [] -> anchor_get sp design ns g scores k odm u ocm = Some (Raise FullyExplored)) /\
    (forall s, V <> [] -> scores V = Ok s -> length s = length V ->
       exists A, anchor_get sp design ns g scores k odm u ocm = Some (Ok A) /\ length A = Nat.min k (length V) /\ best_of V s A).
Proof.
  intros HW SA Z. destruct (filter_new_total odm W Z) as (V & HV). exists V. split; [apply filter_new_selects; auto|].
  unfold anchor_get. rewrite HW. cbn [rbind]. rewrite HV. cbn [bind]. split; [intros ->; reflexivity|].
  intros s NV Hs Ls. destruct V as [|v V]; [congruence|]. rewrite Hs. cbn [bind].
  destruct (SA s) as (P & _).
  destruct (mapM_get_total (v :: V) (firstn (Nat.min (length s) k) (g_argsort g s))) as (A & A1 & A2 & _).
  { apply Forall_forall. intros i Hi. rewrite <- Ls. assert (In i (g_argsort g s)) by (rewrite <- (firstn_skipn (Nat.min (length s) k)); apply in_or_app; auto).
    eapply Permutation_in in H; [|exact P]. apply in_seq in H. lia. }
  exists A. split; [f_equal; exact A1|]. split.
  - unfold mat, vec in *. rewrite A2, firstn_length. apply Permutation_length in P. rewrite seq_length in P. rewrite P, Ls. lia.
  - eapply best_of_argsort; eauto.
Qed.

Section Suggest.
  Variables (ds : list descr) (cs : option (list constr)) (sp : space) (oc : option context) (cm : ctxmgr).
  Hypothesis D : design_space ds cs = Ok sp.
  Hypothesis W : Forall wf_kind (kinds sp).
  Hypothesis CC : Forall canonical_cats (kinds sp).
  Hypothesis G : good_context sp oc.
  Hypothesis E : context_manager sp oc = Ok cm.
  Definition good_row (x : vec) : Prop := design_point (kinds sp) x /\ carries_opt sp oc x.

  Lemma candidates_good design ns g u X : In design ["random"; "sobol"]%string -> good_gen g -> 1 <= ns ->
    anchor_candidates sp design ns g u (Some cm) = Some (Ok X) -> Forall good_row X /\ (u = false -> length X = ns).
  Proof.
    intros HD HG N H. unfold anchor_candidates in H. apply rbind_ok in H as (sub & Hs & H). apply rbind_ok in H as (M & HM & H).
    injection H as H. injection Hs as Hs. apply bind_ok in H as (Z & HZ & H).
    destruct (good_anchor_space ds cs sp oc cm D W G E) as (ds' & cs' & sub' & S1 & S2 & S3 & S4 & S5 & S6 & S7 & S8).
    pose proof (eq_trans (eq_sym Hs) S1) as S1'. injection S1' as <-.
    assert (Wk : Forall wf_kind (kinds sub)) by (rewrite S3; eapply anchor_kinds_Forall; eauto).
    destruct (design_rows _ _ _ _ _ _ _ _ S2 Wk S4 HG HD HM) as (LM & RM).
    assert (NM : M <> []) by (destruct M; [simpl in LM; lia|discriminate]).
    assert (Q : exists M', M' <> [] /\ Forall (design_row (kinds sub)) M' /\ unzip_inputs sub M' = Ok Z /\ (u = false -> M' = M)).
    { destruct u; [|exists M; auto]. exists (sort_unique M). split; [apply sort_unique_ne; auto|]. split.
      - apply Forall_forall. intros x Hx. rewrite Forall_forall in RM. apply RM. apply (proj1 (sort_unique_in M x)). exact Hx.
      - destruct (sort_unique M); [discriminate|]. split; auto. discriminate. }
    destruct Q as (M' & NM' & RM' & UZ & UM).
    assert (ZZ : Forall (design_point (anchor_kinds sp oc)) Z /\ length Z = length M').
    { rewrite <- S3. destruct (has_bandit sub) eqn:HB.
      - unfold unzip_inputs in UZ. rewrite HB in UZ. rewrite atleast_2d_ne in UZ by auto. injection UZ as <-. split; auto.
        eapply Forall_impl; [|exact RM']. intros x. destruct (sf_b _ (design_space_facts _ _ _ S2) HB) as (AB & _). clear -AB.
        induction 1 as [|k ks b r Hb H IH]; [constructor|]. inversion AB; subst. constructor; [|apply IH; auto]. destruct k; try discriminate. exact Hb.
      - assert (B : bandit_free (kinds sub)) by (apply (sf_nb _ (design_space_facts _ _ _ S2)); auto).
        eapply unzip_rows; eauto.
        + eapply design_space_facts; eauto.
        + rewrite S3. eapply anchor_kinds_Forall; eauto. }
    destruct ZZ as (ZZ & LZ).
    assert (NZ : Z <> []) by (destruct Z, M'; try congruence; discriminate).
    destruct (add_context_good ds cs sp oc cm D W G E Z X ZZ NZ H) as (R1 & R2). split; auto.
    intro U. rewrite R2, LZ, (UM U). exact LM.
  Qed.

  Lemma good_row_length x : good_row x -> length x = model_dimensionality sp.
  Proof. intros (H & _). rewrite (design_point_length _ _ W H). symmetry. apply model_dim_width. eapply design_space_facts; eauto. Qed.

  Lemma point_zippable x : design_point (kinds sp) x -> exists t, user_form sp x t.
  Proof.
    intro H. unfold user_form, zip_inputs. destruct (has_bandit sp) eqn:HB; [simpl; eauto|].
    pose proof (design_space_facts _ _ _ D) as F. pose proof (sf_nb _ F HB) as B.
    destruct (row_roundtrip2 sp x F) as (t & _ & T & _).
    - clear -H B. unfold encoding_row, design_point in *. induction H as [|k ks b r Hb H IH]; [constructor|]. inversion B; subst.
      constructor; auto. destruct k; simpl in *; try discriminate; auto; destruct Hb as (y & -> & _); reflexivity.
    - simpl. rewrite T. simpl. eauto.
  Qed.

  Lemma round_good x r : length x = model_dimensionality sp -> carries_opt sp oc x -> round_optimum sp [x] = Ok [r] -> good_row r.
  Proof. intros. eapply round_keeps; eauto. Qed.

  (** one local optimization *)
  Lemma apply_inv op x0 f g odm y fy : apply_optimizer op x0 f g odm (Some cm) sp = Ok (y, fy) ->
    exists x0n v row r, x0_nocontext cm x0 = Ok x0n /\ unknown odm x0 /\
      op x0n (f_nc cm f) (match g with Some h => Some (f_df_nc cm h) | None => None end) = Ok v /\
      expand_row cm v = Ok row /\ round_optimum sp [row] = Ok [r] /\ f y = Ok fy /\ unknown odm y /\
      ((unknown odm r /\ y = r) \/ (~ unknown odm r /\ y = x0)).
  Proof.
    intro H. unfold apply_optimizer in H. apply bind_ok in H as (x0n & H0 & H). apply bind_ok in H as (d0 & Hd & H).
    destruct d0; [discriminate|]. apply is_dup_false in Hd. apply bind_ok in H as (ox & Hox & H). apply bind_ok in H as (sx & Hsx & H).
    apply bind_ok in H as (rs & Hrs & H). destruct rs as [|r [|]]; try discriminate. apply bind_ok in H as (d & Hdr & H).
    exists x0n, ox, sx, r. split; auto. split; auto. split; auto. split; auto. split; auto. destruct d.
    - apply bind_ok in H as (fx & Hf & H). injection H as <- <-. split; auto. split; auto. right. split; auto. apply is_dup_true_known; auto.
    - apply bind_ok in H as (fx & Hf & H). injection H as <- <-. apply is_dup_false in Hdr. auto.
  Qed.
  Lemma apply_good op x0 f g odm y fy : apply_optimizer op x0 f g odm (Some cm) sp = Ok (y, fy) -> good_row x0 -> good_row y.
  Proof.
    intros H G0. apply apply_inv in H as (x0n & v & row & r & _ & _ & _ & Er & Rr & _ & _ & [(_ & ->)|(_ & ->)]); auto.
    destruct (expand_good ds cs sp oc cm D W G E _ _ Er) as (L1 & L2). eapply round_good; eauto.
  Qed.
  Lemma x0_nocontext_total x0 : length x0 = model_dimensionality sp -> exists v, x0_nocontext cm x0 = Ok v /\ length v = length (cm_noncontext_index cm).
  Proof.
    intro L. unfold x0_nocontext. destruct (mapM_get_total x0 (cm_noncontext_index cm)) as (v & V1 & V2 & _); [|eauto].
    rewrite L. destruct (oc_cases oc) as [(c & O)|O].
    - destruct (good_cm_some ds cs sp oc cm D W G E c O) as (vs & es & LY & C). destruct (good_some sp oc G c O) as (_ & _ & DN & _).
      eapply nci_bound; eauto.
    - destruct (good_cm_none sp oc cm E O) as (bs & _ & ->). simpl. apply Forall_forall. intros i Hi. apply in_seq in Hi. lia.
  Qed.
  Lemma expand_total v : length v = length (cm_noncontext_index cm) -> exists row, expand_row cm v = Ok row.
  Proof. intro L. unfold expand_row. rewrite L, Nat.eqb_refl. simpl. eauto. Qed.

  Lemma apply_total op x0 f g odm : good_row x0 -> unknown odm x0 -> (forall x, design_point (kinds sp) x -> exists y, f x = Ok y) ->
    (forall dm, odm = Some dm -> dm_space dm = sp) ->
    (forall x0n, x0_nocontext cm x0 = Ok x0n -> exists v,
        op x0n (f_nc cm f) (match g with Some h => Some (f_df_nc cm h) | None => None end) = Ok v /\ length v = length x0n) ->
    exists y fy, apply_optimizer op x0 f g odm (Some cm) sp = Ok (y, fy).
  Proof.
    intros G0 U0 Tf Sd Top. unfold apply_optimizer. destruct (x0_nocontext_total x0 (good_row_length _ G0)) as (x0n & X1 & X2). rewrite X1. cbn [bind].
    apply is_dup_false in U0. rewrite U0. cbn [bind]. destruct (Top x0n X1) as (v & Hv & Lv). rewrite Hv. cbn [bind].
    destruct (expand_total v) as (row & Er); [congruence|]. rewrite Er. cbn [bind].
    destruct (expand_good ds cs sp oc cm D W G E _ _ Er) as (L1 & L2).
    destruct (round_in_domain _ _ _ _ D W (good_roundable sp oc G) L1) as (r & Rr & Dr). unfold mat, vec in *. rewrite Rr. cbn [bind].
    assert (Z : zippable odm r). { destruct odm as [dm|]; simpl; auto. rewrite (Sd dm eq_refl). apply point_zippable; auto. }
    apply is_dup_total in Z as ([|] & ->); cbn [bind].
    - destruct (Tf x0 (proj1 G0)) as (y & ->). simpl. eauto.
    - destruct (Tf r Dr) as (y & ->). simpl. eauto.
  Qed.
End Suggest.

(** ---- mapMi ---- *)
Inductive Forall2i {A B} (R : nat -> A -> B -> Prop) : nat -> list A -> list B -> Prop :=
| F2i_nil k : Forall2i R k [] []
| F2i_cons k a b l l' : R k a b -> Forall2i R (S k) l l' -> Forall2i R k (a :: l) (b :: l').
Lemma mapMi_ok {A B} (f : nat -> A -> res B) l : forall k bs, mapMi f k l = Ok bs <-> Forall2i (fun k a b => f k a = Ok b) k l bs.
Proof.
  induction l as [|a l IH]; intros k bs; simpl.
  - split; [intros [= <-]; constructor|]. intro H; inversion H; auto.
  - split.
    + intro H. apply bind_ok in H as (b & Hb & H). apply bind_ok in H as (t & Ht & H). injection H as <-. constructor; auto. apply IH; auto.
    + intro H. inversion H as [|k0 a0 b0 l0 l1 Q1 Q2]; subst. rewrite Q1. simpl. apply IH in Q2. rewrite Q2. reflexivity.
Qed.
Lemma Forall2i_nth {A B} (R : nat -> A -> B -> Prop) k l l' : Forall2i R k l l' -> forall j b, nth_error l' j = Some b ->
  exists a, nth_error l j = Some a /\ R (k + j) a b.
Proof.
  induction 1; intros [|j] b0 E; simpl in *; try discriminate.
  - injection E as <-. exists a. rewrite Nat.add_0_r. auto.
  - destruct (IHForall2i j b0 E) as (a0 & A1 & A2). exists a0. split; auto. replace (k + S j) with (S k + j) by lia. auto.
Qed.
Lemma Forall2i_len {A B} (R : nat -> A -> B -> Prop) k l l' : Forall2i R k l l' -> length l = length l'.
Proof. induction 1; simpl; congruence. Qed.
