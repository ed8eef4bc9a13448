(** How full the batches of the sampling evaluators are: proofs (C128). *)
From Coq Require Import String List ZArith QArith Qcanon Bool Lia Permutation Sorting.Sorted.
From Verif.Model Require Import Py Space Design Optim.
From Verif.Spec Require Import SpaceSpec DesignSpec ContextSpec SuggestSpec.
From Verif.Proof Require Import Num SpaceP RoundP ConstructP SpaceMain DesignP DesignMain ContextP ContextMain AnchorP SuggestP SuggestMain.
Import ListNotations.
Local Open Scope nat_scope.

(** ---- sort_unique has no repeats *)
Lemma lexlt_irrefl a : lexlt a a = false.
Proof. induction a as [|x a IH]; simpl; auto. rewrite (proj2 (qceq_spec x x) eq_refl). exact IH. Qed.
Lemma lexlt_total a : forall b, a <> b -> lexlt a b = false -> lexlt b a = true.
Proof.
  induction a as [|x a IH]; intros [|y b] N H; simpl in *; try congruence. destruct (qceq x y) eqn:E.
  - apply qceq_spec in E. subst y. rewrite (proj2 (qceq_spec x x) eq_refl). apply IH; congruence.
  - destruct (qceq y x) eqn:E'; [apply qceq_spec in E'; subst; rewrite (proj2 (qceq_spec x x) eq_refl) in E; discriminate|].
    apply qclt_spec. destruct (Qclt_le_dec y x) as [L|L]; auto. exfalso. apply Qcle_lt_or_eq in L as [L|L].
    + apply qclt_spec in L. congruence.
    + subst. rewrite (proj2 (qceq_spec y y) eq_refl) in E. discriminate.
Qed.
Lemma lexlt_trans a : forall b c, lexlt a b = true -> lexlt b c = true -> lexlt a c = true.
Proof.
  induction a as [|x a IH]; intros [|y b] [|w c] H1 H2; simpl in *; try congruence; auto.
  destruct (qceq x y) eqn:E1.
  - apply qceq_spec in E1. subst y. destruct (qceq x w); eauto.
  - apply qclt_spec in H1. destruct (qceq y w) eqn:E2.
    + apply qceq_spec in E2. subst w. rewrite E1. apply qclt_spec. exact H1.
    + apply qclt_spec in H2. pose proof (Qclt_trans _ _ _ H1 H2) as T. destruct (qceq x w) eqn:E3; [|apply qclt_spec; exact T].
      apply qceq_spec in E3. subst w. exfalso. eapply Qclt_not_le; [exact T|apply Qcle_refl].
Qed.
Definition before (a b : vec) : Prop := lexlt a b = true.
Lemma insert_sorted x l : StronglySorted before l -> StronglySorted before (insert_lex x l).
Proof.
  induction 1 as [|h t S IH F]; simpl; [repeat constructor|]. destruct (veqb x h) eqn:E; [constructor; auto|].
  destruct (lexlt x h) eqn:L.
  - constructor; [constructor; auto|]. constructor; [exact L|]. eapply Forall_impl; [|exact F]. intros a Ha. eapply lexlt_trans; eauto.
  - constructor; auto. assert (B : before h x) by (apply lexlt_total; auto; intros ->; rewrite (proj2 (veqb_eq h h) eq_refl) in E; discriminate).
    apply Forall_forall. intros y Hy. apply insert_lex_in in Hy as [->|Hy]; auto. rewrite Forall_forall in F. auto.
Qed.
Lemma sort_unique_sorted X : StronglySorted before (sort_unique X).
Proof. induction X as [|x X IH]; simpl; [constructor|]. apply insert_sorted; auto. Qed.
Lemma sorted_nodup l : StronglySorted before l -> NoDup l.
Proof.
  induction 1 as [|h t S IH F]; constructor; auto. intro Hin. rewrite Forall_forall in F. specialize (F h Hin). unfold before in F. rewrite lexlt_irrefl in F. discriminate.
Qed.
Lemma sort_unique_nodup X : NoDup (sort_unique X).
Proof. apply sorted_nodup, sort_unique_sorted. Qed.

Lemma mapM_nodup {A B} (f : A -> res B) l r : mapM f l = Ok r -> (forall x y z, In x l -> In y l -> f x = Ok z -> f y = Ok z -> x = y) -> NoDup l -> NoDup r.
Proof.
  intro H. apply mapM_ok_Forall2 in H. induction H as [|a b l r Hab H IH]; intros I N; [constructor|]. inversion N; subst. constructor.
  - intro Hb. apply H2. clear -Hab H Hb I. assert (E : exists c, In c l /\ f c = Ok b).
    { clear -H Hb. induction H as [|x y l r Hxy H IH]; [destruct Hb|]. destruct Hb as [->|Hb]; [exists x; simpl; auto|]. destruct (IH Hb) as (c & C1 & C2). exists c. simpl. auto. }
    destruct E as (c & C1 & C2). rewrite (I a c b); simpl; auto.
  - apply IH; auto. intros x y z Hx Hy. apply I; simpl; auto.
Qed.
Lemma mapM_same_set {A B} (f : A -> res B) l r l' r' : mapM f l = Ok r -> mapM f l' = Ok r' -> incl l l' -> incl r r'.
Proof.
  intros H H' I y Hy. apply mapM_ok_Forall2 in H, H'. assert (E : exists x, In x l /\ f x = Ok y).
  { clear -H Hy. induction H as [|a b l r Hab H IH]; [destruct Hy|]. destruct Hy as [->|Hy]; [exists a; simpl; auto|]. destruct (IH Hy) as (c & C1 & C2). exists c. simpl. auto. }
  destruct E as (x & X1 & X2). apply I in X1. clear -H' X1 X2. induction H' as [|a b l r Hab H IH]; [destruct X1|]. destruct X1 as [->|X1]; [left; congruence|right; auto].
Qed.

(** ---- the loop over the anchors *)
Lemma moved {A} (u t : A) l m : In u (l ++ t :: m) -> In u ((t :: l) ++ m).
Proof. intro H. apply in_app_or in H as [H|[<-|H]]; [right; apply in_or_app; auto|left; auto|right; apply in_or_app; auto]. Qed.
Lemma loop_count sp size opt anchors : forall k batch seen forms B, Forall2 (user_form sp) anchors forms ->
  batch_loop sp size opt k anchors batch seen = Ok B ->
  length B = size \/ exists news skipped, length B = length batch + length news /\ length anchors = length news + length skipped /\
    (forall t, In t skipped -> In t forms /\ In t (news ++ seen)) /\ (NoDup forms -> NoDup skipped) /\
    ((forall j x y, opt j x = Ok y -> y = x) -> incl forms (news ++ seen)).
Proof.
  induction anchors as [|a l IH]; intros k batch seen forms B F H; simpl in H.
  - injection H as <-. inversion F; subst. right. exists [], []. simpl. repeat split; auto; try tauto; try constructor. intros _ t [].
  - inversion F as [|? t ? forms' Ha F']; subst. apply bind_ok in H as (x & Hx & H). apply bind_ok in H as (zx & Hzx & H). apply bind_ok in H as ((b & s) & Hst & H). cbn [fst snd] in H.
    destruct (Nat.eqb_spec (length b) size) as [Q|Q]; [injection H as <-; auto|].
    destruct (vmem zx seen) eqn:M.
    + apply bind_ok in Hst as (za & Hza & Hst). apply zip_tuple_ok in Hza. assert (za = t) as -> by (eapply user_form_unique; eauto). destruct (vmem t seen) eqn:Mt.
      * injection Hst as <- <-. destruct (IH _ _ _ _ _ F' H) as [|(news & sk & A1 & A2 & A3 & A4 & A5)]; auto. right. exists news, (t :: sk). apply vmem_spec in Mt. simpl.
        split; auto. split; [lia|]. split; [intros u [<-|Hu]; [split; auto; apply in_or_app; auto|destruct (A3 u Hu); split; auto]|].
        split; [intro N; inversion N; subst; constructor; auto; intro Ht; apply A3 in Ht as (Ht & _); auto|].
        intros I u [<-|Hu]; [apply in_or_app; auto|apply A5; auto].
      * injection Hst as <- <-. destruct (IH _ _ _ _ _ F' H) as [|(news & sk & A1 & A2 & A3 & A4 & A5)]; auto. right. exists (t :: news), sk. rewrite app_length in A1. simpl in *.
        split; [lia|]. split; [lia|]. split; [intros u Hu; destruct (A3 u Hu) as (U1 & U2); split; auto; apply (moved u _ news seen U2)|].
        split; [intro N; inversion N; subst; auto|].
        intros I u [<-|Hu]; [left; auto|]. apply moved. apply A5; auto.
    + injection Hst as <- <-. destruct (IH _ _ _ _ _ F' H) as [|(news & sk & A1 & A2 & A3 & A4 & A5)]; auto. right. exists (zx :: news), sk. rewrite app_length in A1. simpl in *.
      split; [lia|]. split; [lia|]. split; [intros u Hu; destruct (A3 u Hu) as (U1 & U2); split; auto; apply (moved u _ news seen U2)|].
      split; [intro N; inversion N; subst; auto|].
      intros I u [<-|Hu].
      * left. apply I in Hx. subst x. apply zip_tuple_ok in Hzx. eapply user_form_unique; eauto.
      * apply moved. apply A5; auto.
Qed.
Lemma dedup_full sp size opt dm anchors x0 forms B : Forall2 (user_form sp) anchors forms -> NoDup forms -> (forall t, In t forms -> ~ In t (dm_points dm)) ->
  dedup_batch sp size opt dm anchors x0 = Ok B ->
  length B = size \/ (length anchors <= 2 * length B /\ ((forall j x y, opt j x = Ok y -> y = x) -> length anchors <= length B)).
Proof.
  intros F N U H. unfold dedup_batch in H. apply bind_ok in H as ((b & s) & Hs & H). apply bind_ok in H as (B' & HB & H). cbn [fst snd] in HB.
  assert (B' = B) as -> by (destruct B'; [discriminate|congruence]).
  assert (S0 : exists new0, s = new0 ++ dm_points dm /\ length b = length new0).
  { destruct x0 as [x|]; [|injection Hs as <- <-; exists []; auto]. destruct (np_any (Some [x])); [|injection Hs as <- <-; exists []; auto].
    apply bind_ok in Hs as (zx & _ & Hs). injection Hs as <- <-. exists [zx]. auto. }
  destruct S0 as (new0 & -> & Lb). destruct (loop_count _ _ _ _ _ _ _ _ _ F HB) as [|(news & sk & A1 & A2 & A3 & A4 & A5)]; auto. right.
  assert (K : forall t, In t forms -> In t (news ++ new0 ++ dm_points dm) -> In t (news ++ new0)).
  { intros t T Ht. rewrite app_assoc in Ht. apply in_app_or in Ht as [|Ht]; auto. destruct (U t T Ht). }
  pose proof (Forall2_len _ _ _ F) as LF. split.
  - assert (LS : length sk <= length (news ++ new0)) by (apply NoDup_incl_length; auto; intros t Ht; destruct (A3 t Ht); apply K; auto). rewrite app_length in LS. lia.
  - intro I. assert (LS : length forms <= length (news ++ new0)) by (apply NoDup_incl_length; auto; intros t Ht; apply K; auto; apply A5; auto). rewrite app_length in LS. lia.
Qed.

Section Full.
  Variables (ds : list descr) (cs : option (list constr)) (sp : space) (oc : option context) (cm : ctxmgr).
  Hypothesis D : design_space ds cs = Ok sp.
  Hypothesis W : Forall wf_kind (kinds sp).
  Hypothesis CC : Forall canonical_cats (kinds sp).
  Hypothesis G : good_context sp oc.
  Hypothesis E : context_manager sp oc = Ok cm.

  Lemma form_injective x y t : design_point (kinds sp) x -> design_point (kinds sp) y -> user_form sp x t -> user_form sp y t -> x = y.
  Proof.
    intros Hx Hy Fx Fy. unfold user_form, zip_inputs in Fx, Fy. destruct (has_bandit sp) eqn:HB; [simpl in *; congruence|].
    pose proof (design_space_facts _ _ _ D) as F. pose proof (sf_nb _ F HB) as B.
    assert (K : forall x, design_point (kinds sp) x -> (Z <- mapM (model_to_objective sp) [x] ;; Ok (atleast_2d Z)) = Ok [t] -> objective_to_model sp t = Ok x).
    { clear x y Hx Hy Fx Fy. intros x Hx Fx. destruct (row_roundtrip2 sp x F) as (t' & _ & T & T2).
      - clear -Hx B. unfold encoding_row, design_point in *. induction Hx as [|k ks b r Hb H IH]; [constructor|]. inversion B; subst.
        constructor; auto. destruct k; simpl in *; try discriminate; auto; destruct Hb as (y & -> & _); reflexivity.
      - simpl in Fx. rewrite T in Fx. simpl in Fx. injection Fx as <-. exact T2. }
    pose proof (K x Hx Fx) as K1. pose proof (K y Hy Fy) as K2. congruence.
  Qed.

  Lemma anchor_len z : has_bandit sp = false -> design_point (anchor_kinds sp oc) z -> length z = length (cm_noncontext_index cm).
  Proof.
    intros HB H2. pose proof (good_facts ds cs sp D) as GF. assert (B : bandit_free (kinds sp)) by (apply (sf_nb _ GF); auto).
    pose proof (lay_space _ _ _ D B) as L. pose proof (anchor_kinds_Forall sp oc wf_kind W) as Wf. unfold anchor_kinds in *. destruct oc as [c|] eqn:O.
    - destruct (good_cm_some ds cs sp (Some c) cm D W G E c eq_refl) as (vs & es & _ & C).
      rewrite (co_nci _ _ _ _ _ C). rewrite (design_point_length _ _ Wf H2). unfold total_width, free_kinds. pose proof (ly_len _ L) as LL. clear -LL.
      induction (sp_xvars sp) as [|v t IH]; auto. inversion LL; subst. simpl. destruct (free_var c v); simpl; auto. rewrite app_length. simpl. f_equal; auto.
    - destruct (good_cm_none sp None cm E eq_refl) as (bs & _ & ->). cbn [cm_noncontext_index]. rewrite seq_length, (design_point_length _ _ Wf H2). symmetry. apply model_dim_width. exact GF.
  Qed.
  Lemma expand_injective x y w : has_bandit sp = false -> design_point (anchor_kinds sp oc) x -> design_point (anchor_kinds sp oc) y ->
    expand_row cm x = Ok w -> expand_row cm y = Ok w -> x = y.
  Proof.
    intros HB Hx Hy Ex Ey. pose proof (anchor_len x HB Hx) as Lx. pose proof (anchor_len y HB Hy) as Ly. pose proof (good_facts ds cs sp D) as GF.
    assert (B : bandit_free (kinds sp)) by (apply (sf_nb _ GF); auto). pose proof (lay_space _ _ _ D B) as L. destruct (oc_cases oc) as [(c & O)|O].
    - destruct (good_cm_some ds cs sp oc cm D W G E c O) as (vs & es & _ & C). destruct (good_some sp oc G c O) as (_ & NK & DN & U & KN & VO).
      destruct (expand_ok _ _ _ _ _ L DN U C x Lx) as (r & E1 & _ & E3 & _). destruct (expand_ok _ _ _ _ _ L DN U C y Ly) as (r' & E1' & _ & E3' & _).
      rewrite Ex in E1. rewrite Ey in E1'. injection E1 as <-. injection E1' as <-. rewrite E3 in E3'. clear -E3'. revert y E3'. induction x; destruct y; simpl; intro H; try discriminate; auto. injection H as -> H. f_equal; auto.
    - assert (M : length (cm_noncontext_index cm) = model_dimensionality sp) by (destruct (good_cm_none sp oc cm E O) as (bs & _ & ->); apply seq_length).
      rewrite (good_no_context_full sp oc cm E x O) in Ex by congruence. rewrite (good_no_context_full sp oc cm E y O) in Ey by congruence. congruence.
  Qed.

  (** the candidates with and without repeats *)
  Lemma candidates_unique design ns g X X' : In design ["random"; "sobol"]%string -> good_gen g -> 1 <= ns ->
    anchor_candidates sp design ns g true (Some cm) = Some (Ok X) -> anchor_candidates sp design ns g false (Some cm) = Some (Ok X') ->
    NoDup X /\ incl X' X.
  Proof.
    intros HD HG N H H'. unfold anchor_candidates in H, H'. apply rbind_ok in H as (sub & Hs & H). apply rbind_ok in H as (M & HM & H). injection H as H. injection Hs as Hs. apply bind_ok in H as (Z & HZ & H).
    apply rbind_ok in H' as (sub2 & Hs2 & H'). injection Hs2 as Hs2. pose proof (eq_trans (eq_sym Hs) Hs2) as Q. injection Q as <-. clear Hs2.
    apply rbind_ok in H' as (M2 & HM2 & H'). rewrite HM in HM2. injection HM2 as <-. injection H' as H'. apply bind_ok in H' as (Z' & HZ' & H').
    destruct (good_anchor_space ds cs sp oc cm D W G E) as (ds' & cs' & sub' & S1 & S2 & S3 & S4 & S5 & S6 & S7 & S8).
    pose proof (eq_trans (eq_sym Hs) S1) as S1'. injection S1' as <-.
    assert (Wk : Forall wf_kind (kinds sub)) by (rewrite S3; eapply anchor_kinds_Forall; eauto).
    destruct (design_rows _ _ _ _ _ _ _ _ S2 Wk S4 HG HD HM) as (LM & RM).
    assert (NM : M <> []) by (destruct M; [simpl in LM; lia|discriminate]).
    pose proof (sort_unique_ne M NM) as NU. pose proof (sort_unique_nodup M) as DU. pose proof (sort_unique_in M) as IU.
    assert (RU : Forall (design_row (kinds sub)) (sort_unique M)) by (apply Forall_forall; intros x Hx; rewrite Forall_forall in RM; apply RM; now apply IU).
    set (U := sort_unique M) in *. assert (HZ2 : unzip_inputs sub U = Ok Z) by (destruct U; [congruence|exact HZ]). clear HZ.
    pose proof (design_space_facts _ _ _ S2) as SF.
    assert (QQ : NoDup Z /\ incl Z' Z /\ Z <> [] /\ Z' <> [] /\ (has_bandit sp = false -> Forall (design_point (anchor_kinds sp oc)) Z)).
    { destruct (has_bandit sub) eqn:HB.
      - unfold unzip_inputs in HZ2, HZ'. rewrite HB in HZ2, HZ'. rewrite atleast_2d_ne in HZ2, HZ' by auto. injection HZ2 as <-. injection HZ' as <-.
        split; auto. split; [intros x Hx; now apply IU|]. split; auto. split; auto. congruence.
      - assert (B : bandit_free (kinds sub)) by (apply (sf_nb _ SF); auto).
        assert (CK : Forall canonical_cats (kinds sub)) by (rewrite S3; eapply anchor_kinds_Forall; eauto).
        destruct (unzip_rows sub U Z SF CK B HB NU RU HZ2) as (P1 & L1). unfold unzip_inputs in HZ2, HZ'. rewrite HB in HZ2, HZ'.
        apply bind_ok in HZ2 as (Y & HY & EY). apply bind_ok in HZ' as (Y' & HY' & EY'). pose proof (mapM_length _ _ _ HY) as LY. pose proof (mapM_length _ _ _ HY') as LY'.
        assert (NY : Y <> []) by (destruct Y, U; try congruence; discriminate). assert (NY' : Y' <> []) by (destruct Y', M; try congruence; discriminate).
        rewrite atleast_2d_ne in EY, EY' by auto. injection EY as <-. injection EY' as <-. split; [|split; [|split; [auto|split; [auto|intros _; rewrite <- S3; exact P1]]]].
        + eapply mapM_nodup; [exact HY| |exact DU]. intros x y z Hx Hy Ex Ey. rewrite Forall_forall in RU.
          assert (K : forall x, In x U -> objective_to_model sub x = Ok z -> model_to_objective sub z = Ok x).
          { clear x y Hx Hy Ex Ey. intros x Hx Ex. pose proof (design_row_values _ _ B (RU x Hx)) as V.
            destruct (row_roundtrip sub x SF) as (z' & Z1 & _ & _ & Z4).
            - clear -V CK. induction V as [|k v ks r Hv V IH]; [constructor|]. inversion CK; subst. constructor; auto. apply valid_encodable, canonical_valid; auto.
            - rewrite Ex in Z1. injection Z1 as <-. exact Z4. }
          pose proof (K x Hx Ex) as K1. pose proof (K y Hy Ey) as K2. congruence.
        + eapply mapM_same_set; [exact HY'|exact HY|]. intros x Hx. now apply IU. }
    destruct QQ as (NZ & IZ & EZ & EZ' & PZ). unfold anchor_add_context in H, H'. destruct (has_bandit sp) eqn:HB; [injection H as <-; injection H' as <-; auto|].
    unfold expand_vector in H, H'. rewrite atleast_2d_ne in H, H' by auto. split.
    - eapply mapM_nodup; [exact H| |exact NZ]. specialize (PZ eq_refl). rewrite Forall_forall in PZ. intros x y z Hx Hy Ex Ey. eapply expand_injective; eauto.
    - eapply mapM_same_set; eauto.
  Qed.

  (** the anchors *)
  Lemma selects_nodup {A} (P : A -> Prop) l l' : selects P l l' -> NoDup l -> NoDup l'.
  Proof. induction 1 as [|a l l' Pa H IH|a l l' Pa H IH]; intro N; auto; inversion N; subst; auto. constructor; auto. intro Ha. apply (selects_incl _ _ _ H) in Ha. tauto. Qed.
  Lemma selects_in {A} (P : A -> Prop) l l' : selects P l l' -> forall a, In a l -> P a -> In a l'.
  Proof. induction 1 as [|a l l' Pa H IH|a l l' Pa H IH]; simpl; intros b Hb Pb; auto; destruct Hb as [<-|Hb]; auto; tauto. Qed.
  Lemma anchors_many ns g scores k dm A X N : good_gen g -> argsorts (g_argsort g) -> 1 <= ns -> dm_space dm = sp -> (forall V s, scores V = Ok s -> length s = length V) ->
    anchor_get sp "random" ns g scores k (Some dm) true (Some cm) = Some (Ok A) -> anchor_candidates sp "random" ns g false (Some cm) = Some (Ok X) ->
    (forall x, In x N -> In x X /\ unknown (Some dm) x) -> distinct_rows sp N ->
    Nat.min k (length N) <= length A /\ exists forms, Forall2 (user_form sp) A forms /\ NoDup forms /\ forall t, In t forms -> ~ In t (dm_points dm).
  Proof.
    intros GG SA NS Ed LS HA HX HN DN. pose proof HA as HA0. apply anchor_get_inv in HA as (U & V & s & H1 & H2 & H3 & H4 & H5).
    destruct (candidates_unique _ _ _ _ _ (or_introl eq_refl) GG NS H1 HX) as (NU & IU). pose proof (selects_nodup _ _ _ H2 NU) as NV.
    assert (NN : NoDup N).
    { destruct DN as (ts & F & ND). clear -F ND. induction F as [|a t N ts Ht F IH]; [constructor|]. inversion ND; subst. constructor; auto. intro Ha. apply H1. clear -F Ha Ht.
      induction F as [|b u N ts Hu F IH]; [destruct Ha|]. destruct Ha as [->|Ha]; [left; eapply user_form_unique; eauto|right; auto]. }
    assert (LN : length N <= length V) by (apply NoDup_incl_length; auto; intros x Hx; destruct (HN x Hx); eapply selects_in; eauto).
    destruct (SA s) as (P & _). pose proof (LS _ _ H4) as Ls. pose proof (Permutation_length P) as LP. rewrite seq_length in LP.
    pose proof (mapM_length _ _ _ H5) as LA. rewrite firstn_length in LA. split; [unfold mat, vec in *; lia|].
    pose proof (anchors_good ds cs sp oc cm D W CC G E _ _ _ _ _ _ _ _ (or_introl eq_refl) GG NS HA0) as GA.
    assert (NA : NoDup A).
    { eapply mapM_nodup; [exact H5| |].
      - intros i j v _ _ Hi Hj. unfold get in Hi, Hj. destruct (nth_error V i) eqn:Ei; [|discriminate]. destruct (nth_error V j) eqn:Ej; [|discriminate]. injection Hi as ->. injection Hj as ->.
        eapply (proj1 (NoDup_nth_error V)); eauto; [|congruence]. apply nth_error_Some. congruence.
      - assert (NP : NoDup (g_argsort g s)) by (eapply Permutation_NoDup; [apply Permutation_sym; exact P|apply seq_NoDup]). rewrite <- (firstn_skipn (Nat.min (length s) k)) in NP. eapply NoDup_app_l; eauto. }
    clear -GA NA Ed D. induction A as [|a A IH]; [exists []; repeat split; auto; try constructor; tauto|]. apply Forall_cons_iff in GA as ((Ga & t & Ft & Kt) & GA). apply NoDup_cons_iff in NA as (Na & NA).
    destruct (IH GA NA) as (forms & F1 & F2 & F3). rewrite Ed in Ft. exists (t :: forms). split; [constructor; auto|]. split; [|intros u [<-|Hu]; auto]. constructor; auto. intro Ht. apply Na.
    clear -F1 Ht Ft Ga GA D. induction F1 as [|b u A forms Hu F IH]; [destruct Ht|]. apply Forall_cons_iff in GA as ((Gb & _) & GA). destruct Ht as [->|Ht]; [left|right; auto].
    symmetry. eapply form_injective; [apply Ga|apply Gb|exact Ft|exact Hu].
  Qed.

  Theorem random_full a size ns ns' g g' loc dm B X N : aq_space a = sp -> aq_cm a = cm -> dm_space dm = sp -> good_gen g' -> argsorts (g_argsort g') -> 1 <= ns' ->
    random_batch a size ns ns' g g' loc (Some dm) = Some (Ok B) -> anchor_candidates sp "random" ns' g' false (Some cm) = Some (Ok X) ->
    (forall x, In x N -> In x X /\ unknown (Some dm) x) -> distinct_rows sp N -> length B < size -> length N <= length B.
  Proof.
    intros Es Ec Ed GG SA NS H HX HN DN LB. apply random_inv in H as (p & fp & A & HP & HA & HB). unfold random_anchors in HA. rewrite Es, Ec in HA. rewrite Es in HB.
    destruct (anchors_many _ _ _ _ _ _ _ _ GG SA NS Ed random_scores_len HA HX HN DN) as (LA & forms & F1 & F2 & F3).
    destruct (dedup_full _ _ _ _ _ _ _ _ F1 F2 F3 HB) as [Q|(_ & Q)]; [lia|]. specialize (Q ltac:(intros j x y [= <-]; reflexivity)). lia.
  Qed.
  Theorem thompson_full a ts size ns' g' loc dm B X N : aq_space a = sp -> dm_space dm = sp -> good_gen g' -> argsorts (g_argsort g') -> 1 <= ns' ->
    (forall V s, ts V = Ok s -> length s = length V) ->
    thompson_batch a ts size ns' g' loc (Some dm) (Some cm) = Some (Ok B) -> anchor_candidates sp "random" ns' g' false (Some cm) = Some (Ok X) ->
    (forall x, In x N -> In x X /\ unknown (Some dm) x) -> distinct_rows sp N -> length B < size -> length N <= 2 * length B.
  Proof.
    intros Es Ed GG SA NS LT H HX HN DN LB. unfold thompson_batch in H. apply rbind_ok in H as (A & HA & H). injection H as H. rewrite Es in HA, H.
    destruct (anchors_many _ _ _ _ _ _ _ _ GG SA NS Ed LT HA HX HN DN) as (LA & forms & F1 & F2 & F3).
    destruct (dedup_full _ _ _ _ _ _ _ _ F1 F2 F3 H) as [Q|(Q & _)]; lia.
  Qed.
End Full.
