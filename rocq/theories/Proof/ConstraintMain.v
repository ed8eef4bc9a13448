(** Constraints and anchor points under a context: C21. *)
From Coq Require Import String List ZArith QArith Qcanon Bool Lia Permutation Sorting.Sorted.
From Verif.Model Require Import Py Space Design Optim.
From Verif.Spec Require Import SpaceSpec DesignSpec ContextSpec SuggestSpec.
From Verif.Proof Require Import Num SpaceP RoundP ConstructP SpaceMain DesignP DesignMain ContextP ContextMain AnchorP SuggestP.
Import ListNotations.
Local Open Scope nat_scope.

Lemma satisfies_fix c x : satisfies (fix_constr c) x <-> satisfies c x.
Proof.
  unfold satisfies, constraint_value, denotes_constr, fix_constr. destruct c as [[f|] g]; simpl; split; intros (v & (h & A & B) & L); eauto 6.
Qed.
Lemma feasible_fix l x : feasible (map fix_constr l) x <-> feasible l x.
Proof.
  unfold feasible. split; intros H c Hc.
  - apply satisfies_fix. apply H. apply in_map_iff. eauto.
  - apply in_map_iff in Hc as (c' & <- & Hc). apply satisfies_fix. auto.
Qed.

Lemma encodes_inj k x x' b : encodes k x b -> encodes k x' b -> x = x'.
Proof.
  destruct k; simpl; try congruence; try tauto. intros (i & -> & L & Hi & O) (j & -> & _ & Hj & O').
  f_equal. specialize (O i Hi). specialize (O' i Hi). rewrite Nat.eqb_refl in O. rewrite O in O'. destruct (Nat.eqb_spec i j); auto.
  injection O' as O'. discriminate.
Qed.

Definition enc_block (k : kind) (xb : Qc * vec) : Prop := encodes k (fst xb) (snd xb) /\ length (snd xb) = width k.
(** encoding a user row writes the blocks one after the other *)
Lemma objective_blocks vs : Forall xv_ok vs -> forall pre xs, Forall2 encodable (map x_kind vs) xs ->
  exists bs, length bs = length xs /\ Forall2 enc_block (map x_kind vs) (combine xs bs) /\
    objective_to_model_from vs (length pre) (pre ++ xs) = Ok (concat bs).
Proof.
  induction 1 as [|v vs V H IH]; intros pre xs F; inversion F as [|? x ? xs' Hx Hxs]; subst; [exists []; simpl; auto|].
  simpl. rewrite get_app_at. cbn [bind].
  destruct (encode_value v x V Hx) as (b & Eb & Cb & Lb). rewrite Eb. cbn [bind].
  destruct (IH (pre ++ [x]) xs' Hxs) as (bs & Lbs & Fb & Ez). rewrite app_length in Ez. simpl in Ez. rewrite Nat.add_1_r, <- app_assoc in Ez. simpl in Ez.
  rewrite Ez. cbn [bind]. exists (b :: bs). simpl. split; [congruence|]. split; [constructor; [split; auto|auto]|reflexivity].
Qed.

Lemma concat_cols (row : vec) vs : forall bs, Forall2 (fun v b => length b = length (x_idx_mod v)) vs bs ->
  map (nth_error row) (concat (map x_idx_mod vs)) = map Some (concat bs) ->
  Forall2 (fun v b => map (nth_error row) (x_idx_mod v) = map Some b) vs bs.
Proof.
  induction vs as [|v vs IH]; intros bs L E; inversion L as [|? b ? bs' Lb Lbs]; subst; constructor; simpl in E; rewrite !map_app in E;
    apply app_split in E; try (rewrite !map_length; auto); try tauto. apply IH; tauto.
Qed.

Definition holds (row : vec) (v : xvar) (x : Qc) : Prop :=
  exists b, encodes (x_kind v) x b /\ map (nth_error row) (x_idx_mod v) = map Some b.
Lemma holds_inj row v x x' : holds row v x -> holds row v x' -> x = x'.
Proof. intros (b & E1 & E2) (b' & E1' & E2'). assert (b' = b) as -> by (apply map_Some_inj; congruence). eapply encodes_inj; eauto. Qed.
Lemma Forall2_holds_inj row vs : forall xs xs', Forall2 (holds row) vs xs -> Forall2 (holds row) vs xs' -> xs = xs'.
Proof.
  induction vs as [|v vs IH]; intros xs xs' H H'; inversion H; inversion H'; subst; auto. f_equal; [eapply holds_inj; eauto|auto].
Qed.
Lemma blocks_hold row vs xs bs : Forall (fun v => length (x_idx_mod v) = width (x_kind v)) vs -> length bs = length xs ->
  Forall2 enc_block (map x_kind vs) (combine xs bs) -> map (nth_error row) (concat (map x_idx_mod vs)) = map Some (concat bs) ->
  Forall2 (holds row) vs xs.
Proof.
  intros L Lb F E.
  assert (F2 : Forall2 (fun v b => map (nth_error row) (x_idx_mod v) = map Some b) vs bs).
  { apply concat_cols; auto. clear E. revert xs bs Lb F. induction L as [|v vs Lv L IH]; intros xs bs Lb F; inversion F as [|? p ? ps P1 P2 Q1 Q2]; subst.
    - destruct xs, bs; try discriminate. constructor.
    - destruct xs as [|x xs], bs as [|b bs]; try discriminate. simpl in Q2. injection Q2 as -> ->. constructor; [destruct P1 as (_ & P1); simpl in P1; congruence|].
      simpl in Lb. eapply (IH xs); auto. }
  clear E. revert xs bs Lb F F2. induction vs as [|v vs IH]; intros xs bs Lb F F2; inversion F2 as [|? b ? bs' B1 B2]; subst.
  - destruct xs; try discriminate. constructor.
  - destruct xs as [|x xs]; [discriminate|]. simpl in F. inversion F as [|? ? ? ? (F1 & _) F3]; subst. inversion L; subst. constructor; [exists b; auto|]. simpl in Lb. eapply IH; eauto.
Qed.
Lemma decode_holds sp row t : lay sp -> encoding_row (kinds sp) row -> length row = model_dimensionality sp ->
  model_to_objective sp row = Ok t -> Forall2 (holds row) (sp_xvars sp) t.
Proof.
  intros L H Len T. destruct (row_roundtrip2 sp row (ly_facts _ L) H) as (t' & F & T' & B). rewrite T in T'. injection T' as <-.
  destruct (objective_blocks _ (sf_ok _ (ly_facts _ L)) [] t F) as (bs & Lb & Fb & Eb). unfold objective_to_model in B. simpl in Eb. rewrite B in Eb. injection Eb as ->.
  eapply blocks_hold; eauto. apply (ly_len _ L). rewrite (ly_mod _ L), <- Len. apply cols_seq.
Qed.
Lemma Forall2_filter {A B} (R : A -> B -> Prop) (p : A -> bool) l l' : Forall2 R l l' ->
  Forall2 R (filter p l) (map snd (filter (fun q => p (fst q)) (combine l l'))).
Proof. induction 1; simpl; [constructor|]. destruct (p x); simpl; auto. Qed.
Lemma free_part_as sp oc t : length t = length (sp_xvars sp) ->
  free_part sp oc t = map snd (filter (fun q => free_var (as_context oc) (fst q)) (combine (sp_xvars sp) t)).
Proof.
  destruct oc as [c|]; [reflexivity|]. intro L. simpl. unfold as_context. symmetry.
  replace (filter (fun q => free_var [] (fst q)) (combine (sp_xvars sp) t)) with (combine (sp_xvars sp) t) by (symmetry; apply filter_all; reflexivity).
  revert L. generalize (sp_xvars sp). induction t as [|x t IH]; intros [|v vs] L; try discriminate; simpl; auto. f_equal. apply IH. simpl in L; congruence.
Qed.

Lemma design_point_encoding ks x : bandit_free ks -> design_point ks x -> encoding_row ks x.
Proof.
  intros B H. unfold encoding_row, design_point in *. induction H as [|k ks b r Hb H IH]; [constructor|]. inversion B; subst.
  constructor; auto. destruct k; simpl in *; try discriminate; auto; destruct Hb as (y & -> & _); reflexivity.
Qed.

Section Cons.
  Variables (ds : list descr) (cs : list constr) (sp : space) (oc : option context) (cm : ctxmgr).
  Hypothesis D : design_space ds (Some cs) = Ok sp.
  Hypothesis W : Forall wf_kind (kinds sp).
  Hypothesis CC : Forall canonical_cats (kinds sp).
  Hypothesis G : good_context sp oc.
  Hypothesis E : context_manager sp oc = Ok cm.

  Lemma free_rows z w r : has_bandit sp = false -> Forall2 valid_value (anchor_kinds sp oc) r ->
    (exists bs, length bs = length r /\ Forall2 enc_block (anchor_kinds sp oc) (combine r bs) /\ z = concat bs) ->
    expand_row cm z = Ok w -> design_point (kinds sp) w -> exists t, user_form sp w t /\ free_part sp oc t = r.
  Proof.
    intros HB V (bs & Lb & Fb & ->) Hw DP.
    pose proof (good_facts ds (Some cs) sp D) as F.
    assert (B : bandit_free (kinds sp)) by (apply (sf_nb _ F); auto). pose proof (lay_space _ _ _ D B) as L.
    destruct (point_zippable ds (Some cs) sp D w DP) as (t & Ut). exists t. split; auto.
    assert (T : model_to_objective sp w = Ok t).
    { unfold user_form, zip_inputs in Ut. rewrite HB in Ut. simpl in Ut. destruct (model_to_objective sp w); [|discriminate]. simpl in Ut. congruence. }
    assert (Lw : length w = model_dimensionality sp) by (destruct (expand_good ds (Some cs) sp oc cm D W G E _ _ Hw); auto).
    pose proof (decode_holds _ _ _ L (design_point_encoding _ _ B DP) Lw T) as HT.
    rewrite free_part_as by (clear -HT; induction HT; simpl; congruence).
    pose proof (Forall2_filter _ (free_var (as_context oc)) _ _ HT) as HF.
    eapply Forall2_holds_inj; [exact HF|].
    assert (KZ : anchor_kinds sp oc = map x_kind (filter (free_var (as_context oc)) (sp_xvars sp))).
    { clear. destruct oc; simpl; auto. unfold anchor_kinds, kinds. rewrite none_all. auto. }
    assert (LF : Forall (fun v => length (x_idx_mod v) = width (x_kind v)) (filter (free_var (as_context oc)) (sp_xvars sp))).
    { pose proof (ly_len _ L) as LL. rewrite Forall_forall in *. intros v Hv. apply LL. apply filter_In in Hv; tauto. }
    eapply blocks_hold; eauto; [rewrite <- KZ; exact Fb|].
    assert (LZ : length (concat bs) = total_width (anchor_kinds sp oc)).
    { clear -Fb Lb. unfold total_width. revert r Lb Fb. generalize (anchor_kinds sp oc). intro ks. revert bs. induction ks as [|k ks IH]; intros [|b bs] [|x r] Lb Fb; inversion Fb; subst; try discriminate; auto.
      simpl. rewrite app_length. destruct H2 as (_ & Q). simpl in Q. f_equal; auto. eapply IH; eauto. }
    destruct (oc_cases oc) as [(c & O)|O].
    - destruct (good_cm_some ds (Some cs) sp oc cm D W G E c O) as (vs & es & _ & C). destruct (good_some sp oc G c O) as (_ & _ & DN & U & KN & VO).
      assert (EC : as_context oc = c) by (rewrite O; reflexivity). rewrite EC in *.
      rewrite <- (co_nci _ _ _ _ _ C).
      assert (Lz : length (concat bs) = length (cm_noncontext_index cm)).
      { rewrite LZ, KZ, (co_nci _ _ _ _ _ C). clear -LF. unfold total_width. induction LF as [|v vs Hv H IH]; simpl; auto. rewrite app_length. f_equal; auto. }
      destruct (expand_ok _ _ _ _ _ L DN U C _ Lz) as (row & E1 & E2 & E3 & E4). rewrite Hw in E1. injection E1 as <-. exact E3.
    - assert (Lz : length (concat bs) = model_dimensionality sp).
      { rewrite LZ. unfold anchor_kinds. rewrite O. symmetry. apply model_dim_width. auto. }
      rewrite (good_no_context_full sp oc cm E _ O Lz) in Hw. injection Hw as <-.
      assert (EC : as_context oc = []) by (rewrite O; reflexivity). rewrite EC, none_all, (ly_mod _ L), <- Lz. apply cols_seq.
  Qed.

  Lemma candidates_feasible ns g u X : good_gen g -> 1 <= ns ->
    anchor_candidates sp "random" ns g u (Some cm) = Some (Ok X) ->
    Forall (fun x => exists t, user_form sp x t /\ feasible cs (free_part sp oc t)) X.
  Proof.
    intros HG N H0. pose proof H0 as H. unfold anchor_candidates in H. apply rbind_ok in H as (sub & Hs & H). apply rbind_ok in H as (M & HM & H).
    injection H as H. injection Hs as Hs. apply bind_ok in H as (Z & HZ & H).
    destruct (good_anchor_space ds (Some cs) sp oc cm D W G E) as (ds' & cs' & sub' & S1 & S2 & S3 & S4 & S5 & S6 & S7 & S8).
    pose proof (eq_trans (eq_sym Hs) S1) as S1'. injection S1' as <-.
    assert (Wk : Forall wf_kind (kinds sub)) by (rewrite S3; eapply anchor_kinds_Forall; eauto).
    destruct (design_rows _ _ _ _ _ _ _ _ S2 Wk S4 HG (or_introl eq_refl) HM) as (LM & RM).
    assert (NM : M <> []) by (destruct M; [simpl in LM; lia|discriminate]).
    assert (FM : Forall (feasible cs) M).
    { rewrite (design_space_constraints _ _ _ D) in S5. pose proof (design_space_constraints _ _ _ S2) as S5'. rewrite S5 in S5'.
      destruct cs' as [l'|]; [|discriminate]. injection S5' as S5'.
      unfold initial_design in HM. simpl in HM. destruct (constrained_returned _ _ _ _ _ _ _ S2 HM) as (_ & FF & _).
      eapply Forall_impl; [|exact FF]. intros x Hx. apply (proj1 (feasible_fix cs x)). rewrite S5'. apply (proj2 (feasible_fix l' x)). exact Hx. }
    assert (Q : exists M', M' <> [] /\ Forall (design_row (kinds sub)) M' /\ Forall (feasible cs) M' /\ unzip_inputs sub M' = Ok Z).
    { destruct u; [|exists M; auto]. exists (sort_unique M). split; [apply sort_unique_ne; auto|]. rewrite Forall_forall in RM, FM. split; [|split].
      - apply Forall_forall. intros x Hx. apply RM. apply (proj1 (sort_unique_in M x)). exact Hx.
      - apply Forall_forall. intros x Hx. apply FM. apply (proj1 (sort_unique_in M x)). exact Hx.
      - destruct (sort_unique M); [discriminate|]. auto. }
    destruct Q as (M' & NM' & RM' & FM' & UZ). clear M HM LM RM NM FM HZ.
    destruct (candidates_good ds (Some cs) sp oc cm D W CC G E _ _ _ _ _ (or_introl eq_refl) HG N H0) as (GX & _).
    unfold anchor_add_context in H. destruct (has_bandit sp) eqn:HB.
    - injection H as <-. rewrite S8 in UZ by auto. unfold unzip_inputs in UZ. rewrite HB in UZ. rewrite atleast_2d_ne in UZ by auto. injection UZ as <-.
      eapply Forall_impl; [|exact FM']. intros x Hx. exists x. unfold user_form, zip_inputs. rewrite HB. split; auto.
      assert (O : oc = None) by (exact (bandit_no_context ds (Some cs) sp oc cm D W G E HB)). rewrite O. exact Hx.
    - unfold unzip_inputs in UZ. rewrite S7 in UZ. apply bind_ok in UZ as (Z' & UZ & EZ). injection EZ as <-.
      assert (NZ : Z' <> []) by (apply mapM_length in UZ; destruct Z', M'; try congruence; discriminate).
      rewrite atleast_2d_ne in H by auto. unfold expand_vector in H. rewrite atleast_2d_ne in H by auto. apply mapM_ok_Forall2 in H. apply mapM_ok_Forall2 in UZ.
      assert (B : bandit_free (kinds sub)) by (apply (sf_nb _ (design_space_facts _ _ _ S2)); auto).
      assert (Ck : Forall canonical_cats (kinds sub)) by (rewrite S3; eapply anchor_kinds_Forall; eauto).
      clear NM' NZ H0. revert X H GX. induction UZ as [|r z M' Z' Hr UZ IH]; intros X H GX; inversion H as [|? w ? X' Hw HX]; subst; constructor.
      + inversion RM' as [|? ? R1 R2]; inversion FM' as [|? ? F1 F2]; inversion GX as [|? ? G1 G2]; subst.
        pose proof (design_row_values _ _ B R1) as V.
        assert (V2 : Forall2 valid_value (kinds sub) r).
        { clear -V Ck. induction V; [constructor|]. inversion Ck; subst. constructor; auto. apply canonical_valid; auto. }
        destruct (free_rows z w r) as (t & Ut & Ft); auto.
        * rewrite <- S3. exact V2.
        * assert (V3 : Forall2 encodable (map x_kind (sp_xvars sub)) r).
          { unfold kinds in V2. clear -V2. induction V2; constructor; auto. apply valid_encodable; auto. }
          destruct (objective_blocks _ (sf_ok _ (design_space_facts _ _ _ S2)) [] r V3) as (bs & Lb & Fb & Eb). exists bs. split; auto. split; [rewrite <- S3; exact Fb|].
          unfold objective_to_model in Hr. simpl in Eb. congruence.
        * apply G1.
        * exists t. split; auto. rewrite Ft. auto.
      + inversion RM'; inversion FM'; inversion GX; subst. apply IH; auto.
  Qed.
End Cons.
