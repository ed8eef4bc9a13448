(** Anchor points under a context: the sub-space they are drawn in and their expansion. *)
From Coq Require Import String List ZArith QArith Qcanon Bool Lia Permutation Sorting.Sorted.
From Verif.Model Require Import Py Space Design Optim.
From Verif.Spec Require Import SpaceSpec DesignSpec ContextSpec SuggestSpec.
From Verif.Proof Require Import Num SpaceP RoundP ConstructP SpaceMain DesignP DesignMain ContextP ContextMain.
Import ListNotations.
Local Open Scope nat_scope.

(** ---- the expanded configuration describes the expanded variables ---- *)
Definition descr1 (d : descr) (k : kind) : Prop :=
  (d_dim d = None \/ (d_dim d = Some 1 /\ exists n, d_name d = Some n)) /\
  exists dom, d_domain d = Some dom /\ forall n, create_variable n (descr_type d) dom (d_dim d) = Ok (mk_var n k 1).

Lemma create_free n ty dom dim v : create_variable n ty dom dim = Ok v -> is_bandit (v_kind v) = false ->
  v_dim v = (match dim with Some d => d | None => 1 end) /\
  forall n' dim', create_variable n' ty dom dim' = Ok (mk_var n' (v_kind v) (match dim' with Some d => d | None => 1 end)).
Proof.
  unfold create_variable. intros H B.
  destruct (String.eqb ty "continuous"). { destruct dom as [[|lo [|hi [|]]]|]; try discriminate. injection H as <-. auto. }
  destruct (String.eqb ty "bandit").
  { destruct dom as [[|]|ia [|a arms]]; try discriminate. destruct (forallb _ _); try discriminate. injection H as <-. discriminate. }
  destruct (String.eqb ty "discrete"). { destruct dom; try discriminate. injection H as <-. auto. }
  destruct (String.eqb ty "categorical"); [|discriminate]. destruct dom; try discriminate. injection H as <-. auto.
Qed.

Lemma config1_kinds i d dom v l xs : d_domain d = Some dom -> create_variable (descr_name i d) (descr_type d) dom (d_dim d) = Ok v ->
  is_bandit (v_kind v) = false -> expand_config1 d = Ok l -> expand_var v = Ok xs -> Forall2 descr1 l (map x_kind xs).
Proof.
  intros Hd H B E X. destruct (create_free _ _ _ _ _ H B) as (D1 & D2).
  assert (Ex : xs = map (fun i => mk_xvar (if Nat.ltb 1 (v_dim v) then (v_name v ++ "_" ++ str_nat (S i))%string else v_name v)
                 (v_kind v) (match v_kind v with KCat cats => length cats | _ => 1 end) [] []) (seq 0 (v_dim v))).
  { unfold expand_var in X. destruct (v_kind v); try discriminate; injection X as <-; reflexivity. }
  subst xs. rewrite map_map. cbn [x_kind]. unfold expand_config1 in E. destruct (d_dim d) as [n|] eqn:Dm.
  - rewrite D1. apply mapM_ok_Forall2 in E. revert E. generalize (seq 0 n) as s. intro s. clear X. revert l.
    induction s as [|j s IH]; intros l E; inversion E; subst; simpl; constructor; auto.
    destruct (d_name d) as [nm|]; [|discriminate]. injection H2 as <-. split; [right; simpl; eauto|].
    exists dom. simpl. split; auto. intro n'. apply (D2 n' (Some 1)).
  - injection E as <-. rewrite D1. simpl. constructor; auto. split; auto. exists dom. split; auto. intro n'. rewrite Dm. apply (D2 n' None).
Qed.

Lemma config_kinds ds cs sp : design_space ds cs = Ok sp -> bandit_free (kinds sp) -> has_bandit sp = false ->
  Forall2 descr1 (sp_config_expanded sp) (kinds sp).
Proof.
  intros H B HB. unfold design_space in H. apply bind_ok in H as (vs & Hv & H).
  apply bind_ok in H as (cfg & Hc & H). apply bind_ok in H as (xss & Hx & H). injection H as <-.
  unfold kinds in *. simpl in *. rewrite set_indices_kind in *. unfold has_bandit in HB. simpl in HB.
  unfold translate_space in Hv. apply bind_ok in Hv as (vs' & Hv' & Hv). destruct (_ && _) in Hv; [discriminate|]. injection Hv as <-.
  unfold expand_config_space in Hc. apply bind_ok in Hc as (ls & Hl & Hc). injection Hc as <-.
  apply mapM_ok_Forall2 in Hl. apply mapM_ok_Forall2 in Hx. apply existsb_false in HB. clear B.
  revert vs' Hv' xss Hx HB ls Hl. generalize 0 as i. induction ds as [|d ds IH]; intros i vs' Hv xss Hx HB ls Hl; simpl in Hv.
  - injection Hv as <-. inversion Hx; inversion Hl; subst. constructor.
  - destruct (d_domain d) as [dom|] eqn:Dd; [|discriminate]. apply bind_ok in Hv as (v & Hcv & Hv). apply bind_ok in Hv as (vs & Hvs & Hv).
    injection Hv as <-. inversion Hx as [|? xs ? xss' X1 X2]; subst. inversion Hl as [|? l ? ls' L1 L2]; subst. inversion HB; subst.
    simpl. rewrite map_app. apply Forall2_app.
    + apply (config1_kinds i d dom v l xs); auto.
    + eapply IH; eauto.
Qed.

(** ---- and building a space from such descriptors gives the same kinds ---- *)
Lemma rebuild ds ks cs : Forall2 descr1 ds ks -> bandit_free ks ->
  exists sp, design_space ds cs = Ok sp /\ kinds sp = ks.
Proof.
  intros H B.
  assert (T : forall i, exists vs, translate_from i ds = Ok vs /\ map v_kind vs = ks /\ Forall (fun v => v_dim v = 1) vs).
  { clear B. induction H as [|d k ds ks (Hd & dom & D1 & D2) H IH]; intro i; cbn [translate_from]; [exists []; auto|].
    rewrite D1. destruct (IH (S i)) as (vs & V1 & V2 & V3). pose proof (D2 (descr_name i d)) as D3. unfold descr_name, descr_type in D3. rewrite D3. cbn [bind].
    rewrite V1. cbn [bind]. eexists. split; [reflexivity|]. simpl. split; [congruence|constructor; auto]. }
  destruct (T 0) as (vs & V1 & V2 & V3).
  assert (C : exists cfg, expand_config_space ds = Ok cfg).
  { unfold expand_config_space. assert (exists ls, mapM expand_config1 ds = Ok ls) as (ls & ->); [|simpl; eauto].
    clear -H. induction H as [|d k ds ks (Hd & _) H (ls & IH)]; [simpl; eauto|]. simpl. unfold expand_config1 at 1.
    destruct Hd as [-> | (-> & n & ->)]; simpl; rewrite IH; simpl; eauto. }
  destruct C as (cfg & C).
  assert (X : exists xss, mapM expand_var vs = Ok xss /\ map x_kind (concat xss) = ks).
  { clear -V2 V3 B. subst ks. induction V3 as [|v vs V V3 IH]; [exists []; auto|]. simpl in B. inversion B; subst.
    destruct (IH H2) as (xss & X1 & X2). simpl mapM. unfold expand_var at 1. rewrite V.
    destruct (v_kind v) eqn:K; try discriminate; simpl; rewrite X1; simpl; eexists; (split; [reflexivity|]); simpl; rewrite X2, K; reflexivity. }
  destruct X as (xss & X1 & X2).
  unfold design_space, translate_space. rewrite V1. cbn [bind].
  assert (N : existsb (fun v => is_bandit (v_kind v)) vs = false).
  { apply existsb_false. rewrite <- V2 in B. unfold bandit_free in B. rewrite Forall_map in B. exact B. }
  rewrite N. cbn [andb bind]. rewrite C. cbn [bind]. rewrite X1. cbn [bind]. eexists. split; [reflexivity|].
  unfold kinds. cbn [sp_xvars]. rewrite set_indices_kind. exact X2.
Qed.

Lemma Forall2_nth {A B} (R : A -> B -> Prop) l l' i b : Forall2 R l l' -> nth_error l' i = Some b -> exists a, nth_error l i = Some a /\ R a b.
Proof. intro H. revert i. induction H; intros [|i] E; simpl in *; try discriminate; eauto. injection E as <-. eauto. Qed.

Lemma get_some {A} (l : list A) i a : nth_error l i = Some a -> get l i = Ok a.
Proof. unfold get. intros ->. auto. Qed.

Lemma free_config sp p : lay sp -> Forall2 descr1 (sp_config_expanded sp) (kinds sp) ->
  exists ds, mapM (get (sp_config_expanded sp)) (concat (map x_idx_obj (filter p (sp_xvars sp)))) = Ok ds /\
    Forall2 descr1 ds (map x_kind (filter p (sp_xvars sp))).
Proof.
  intros L F. assert (I : forall v, In v (filter p (sp_xvars sp)) -> In v (sp_xvars sp)) by (intros v Hv; apply filter_In in Hv; tauto).
  revert I. generalize (filter p (sp_xvars sp)). intro vs. induction vs as [|v vs IHvs]; intro I; [exists []; split; [reflexivity|constructor]|].
  destruct IHvs as (ds & D1 & D2); [intros w Hw; apply I; right; auto|].
  destruct (lay_obj_at sp L v) as (i & Oi & Ni); [apply I; left; auto|].
  destruct (Forall2_nth _ _ _ i (x_kind v) F) as (d & Nd & Rd); [unfold kinds; rewrite nth_error_map, Ni; reflexivity|].
  exists (d :: ds). simpl. rewrite Oi. simpl. rewrite (get_some _ _ _ Nd). cbn [bind]. rewrite D1. cbn [bind]. split; auto.
Qed.

Lemma fix_constr_idem c : fix_constr (fix_constr c) = fix_constr c.
Proof. destruct c as [[f|] g]; reflexivity. Qed.

Definition free_kinds (sp : space) (c : context) : list kind := map x_kind (filter (free_var c) (sp_xvars sp)).

Lemma constraints_opt sp ds cs sub : design_space ds (sp_constraints sp) = Ok sub -> (exists ds0, design_space ds0 cs = Ok sp) ->
  sp_constraints sub = sp_constraints sp.
Proof.
  intros H (ds0 & H0). apply design_space_constraints in H, H0. rewrite H, H0. destruct cs as [l|]; auto. f_equal.
  rewrite map_map. apply map_ext. intro. apply fix_constr_idem.
Qed.

(** the sub-space under a context *)
Lemma anchor_space_context ds cs sp c cm vs es : design_space ds cs = Ok sp -> lay sp -> has_bandit sp = false ->
  cm_ok sp c cm vs es ->
  exists ds' sub, anchor_space sp (Some cm) = Ok sub /\ design_space ds' (sp_constraints sp) = Ok sub /\
    kinds sub = free_kinds sp c.
Proof.
  intros H L HB C. pose proof (config_kinds _ _ _ H (ly_free _ L) HB) as F.
  assert (Len : length (sp_config_expanded sp) = length (sp_xvars sp)).
  { apply Forall2_len in F. unfold kinds in F. rewrite map_length in F. exact F. }
  destruct (free_config sp (free_var c) L F) as (ds' & D1 & D2).
  destruct (rebuild ds' (free_kinds sp c) (sp_constraints sp) D2) as (sub & S1 & S2).
  { pose proof (ly_free _ L) as B. unfold bandit_free, kinds, free_kinds in *. rewrite Forall_map in *. rewrite Forall_forall in *.
    intros v Hv. apply B. apply filter_In in Hv. tauto. }
  exists ds', sub. split; auto. unfold anchor_space. rewrite HB, (co_ncio _ _ _ _ _ C Len), D1. cbn [bind].
  rewrite (co_space _ _ _ _ _ C). exact S1.
Qed.

Lemma none_all (l : list xvar) : filter (free_var []) l = l.
Proof. apply filter_all. reflexivity. Qed.

Lemma context_none_ok sp bs : get_bounds sp = Ok bs ->
  context_manager sp None = Ok (mk_cm sp [] [] [] (seq 0 (model_dimensionality sp)) bs (seq 0 (length (sp_config_expanded sp)))).
Proof. intro H. unfold context_manager. rewrite H. reflexivity. Qed.

Lemma mapM_get_all {A} (l : list A) : mapM (get l) (seq 0 (length l)) = Ok l.
Proof.
  apply mapM_ok_Forall2. assert (G : forall p, Forall2 (fun i a => get (p ++ l) i = Ok a) (seq (length p) (length l)) l).
  { induction l as [|a l IH]; intro p; simpl; constructor.
    - apply get_app_at.
    - specialize (IH (p ++ [a])). rewrite app_length in IH. simpl in IH. rewrite Nat.add_1_r in IH. rewrite <- app_assoc in IH. exact IH. }
  apply (G []).
Qed.

Lemma anchor_space_none ds cs sp bs : design_space ds cs = Ok sp -> bandit_free (kinds sp) -> has_bandit sp = false ->
  get_bounds sp = Ok bs ->
  exists cm ds' sub, context_manager sp None = Ok cm /\ anchor_space sp (Some cm) = Ok sub /\ design_space ds' (sp_constraints sp) = Ok sub /\
    kinds sub = kinds sp.
Proof.
  intros H B HB Hb. rewrite (context_none_ok _ _ Hb). eexists. exists (sp_config_expanded sp).
  destruct (rebuild (sp_config_expanded sp) (kinds sp) (sp_constraints sp)) as (sub & S1 & S2); auto.
  { eapply config_kinds; eauto. }
  exists sub. split; [reflexivity|]. split; auto. unfold anchor_space. rewrite HB. cbn [cm_nocontext_index_obj cm_space].
  rewrite mapM_get_all. exact S1.
Qed.

(** ---- design rows ---- *)
Lemma design_row_values ks row : bandit_free ks -> design_row ks row -> Forall2 user_value ks row.
Proof.
  intros B H. induction H as [|k ks b r Hb H IH]; [constructor|]. inversion B; subst.
  destruct k; try discriminate; destruct Hb as (x & -> & Hx); simpl; constructor; auto.
Qed.

Lemma scale_row_firstn bs u : scale_row bs u = scale_row bs (firstn (length bs) u).
Proof.
  unfold scale_row. f_equal. revert u. induction bs as [|b bs IH]; intros [|x u]; simpl; auto. f_equal. auto.
Qed.

Lemma unit_design_rows ds cs sp dr U n M : design_space ds cs = Ok sp -> Forall wf_kind (kinds sp) -> sampleable sp ->
  unit_draws (dr_unif dr) -> Forall (Forall (fun x => (0 <= x)%Qc /\ (x <= 1)%Qc)) U -> unit_design sp dr U n = Ok M ->
  length M = n /\ Forall (design_row (kinds sp)) M.
Proof.
  intros D W Sa UD HU H. unfold unit_design in H. destruct (has_constraints sp); [discriminate|].
  destruct Sa as [B|(ia & arms & K & Ld)].
  - destruct (space_dim _ _ _ D B) as (E1 & E2 & E3).
    rewrite (get_continuous_dims_ok _ _ _ D B) in H. rewrite E2 in H.
    pose proof (cbounds_wf _ W) as CW.
    assert (Q : exists X, length X = n /\ Forall (fun x => in_box (cbounds (kinds sp)) x) X /\
       (M0 <- fill_noncontinuous sp dr (np_empty (dr_junk dr) n (sp_dim sp)) ;;
        if has_continuous sp then dims <- get_continuous_dims sp ;; assign_cols dims M0 X else Ok M0) = Ok M).
    { destruct (has_continuous sp) eqn:HC.
      - apply bind_ok in H as (M0 & HM & H). cbn [bind] in H.
        pose proof H as A. unfold assign_cols in A. destruct (Nat.eqb_spec (length M0) (length (map (scale_row (cbounds (kinds sp))) U))) as [EL|]; [|discriminate].
        destruct (forallb _ _) eqn:FB; [|discriminate]. clear A.
        exists (map (scale_row (cbounds (kinds sp))) U). split; [|split].
        + rewrite <- EL. apply fill_from_length in HM. unfold np_empty in HM. rewrite map_length, seq_length in HM. exact HM.
        + rewrite Forall_map. rewrite forallb_forall in FB. apply Forall_forall. intros u Hu.
          rewrite scale_row_firstn. apply scale_row_box; auto. split.
          * assert (F1 : In (scale_row (cbounds (kinds sp)) u) (map (scale_row (cbounds (kinds sp))) U)) by (apply in_map; auto).
            apply FB in F1. apply Nat.eqb_eq in F1. unfold scale_row in F1. rewrite map_length, combine_length in F1.
            rewrite cdims_length in F1. unfold vec in *. rewrite firstn_length. lia.
          * rewrite Forall_forall in HU. specialize (HU u Hu). clear -HU. revert u HU. generalize (length (cbounds (kinds sp))).
            induction n; intros [|x u] F; simpl; auto; try constructor; inversion F; subst; auto.
        + rewrite HM. cbn [bind]. rewrite (get_continuous_dims_ok _ _ _ D B). exact H.
      - exists (repeat [] n). split; [apply repeat_length|]. split; [|exact H].
        rewrite (cbounds_nil _ (E3 eq_refl)). apply Forall_forall. intros x Hx. apply repeat_spec in Hx. subst. constructor. }
    destruct Q as (X & L & BX & Q). rewrite (assign_final _ _ _ dr n X D W B L) in Q.
    2:{ eapply Forall_impl; [|exact BX]. intros x. apply in_box_length. }
    injection Q as <-. split; [rewrite map_length; unfold mat, vec in *; rewrite combine_length, seq_length, L; apply Nat.min_id|].
    apply Forall_forall. intros r Hr. apply in_map_iff in Hr as ((i & x) & <- & Hix). apply user_values_blocks; auto.
    eapply final_row_ok; eauto. rewrite Forall_forall in BX. apply BX. apply in_combine_r in Hix. exact Hix.
  - rewrite (has_continuous_bandit _ _ _ _ _ D K) in H.
    assert (S2 : sampleable sp) by (right; eauto).
    destruct (random_main _ _ _ dr n D W S2 UD) as (M' & M1 & M2 & M3). unfold get_samples_without_constraints in M1.
    rewrite (has_continuous_bandit _ _ _ _ _ D K) in M1. rewrite H in M1. injection M1 as <-. auto.
Qed.

Lemma random_design_rows ds cs sp dr n fuel M : design_space ds cs = Ok sp -> Forall wf_kind (kinds sp) -> sampleable sp ->
  (forall k, unit_draws (dr_unif (dr k))) -> random_design fuel sp dr n = Some (Ok M) ->
  length M = n /\ Forall (design_row (kinds sp)) M.
Proof.
  intros D W Sa U H. destruct cs as [cs|].
  - destruct (constrained_returned _ _ _ _ _ _ _ D H) as (L & _ & m & Ds & sel & HD & HS & E). split; auto.
    subst M. assert (F : Forall (design_row (kinds sp)) (concat Ds)).
    { clear -HD D W Sa U. revert HD. unfold drawn_upto. generalize (seq 0 m) as s. intros s HD.
      induction HD as [|k D' s Ds H HD IH]; [constructor|]. simpl. apply Forall_app. split; auto.
      destruct (random_main _ _ _ (dr k) n D W Sa (U k)) as (M & M1 & _ & M3). rewrite H in M1. injection M1 as <-. exact M3. }
    assert (F2 : Forall (design_row (kinds sp)) sel).
    { clear -HS F. induction HS; inversion F; subst; auto. }
    clear -F2. revert sel F2. induction n; intros [|a l] F; simpl; auto; try constructor; inversion F; subst; auto.
  - destruct (random_unconstrained _ _ dr n fuel D W Sa (U 0)) as (M' & M1 & M2 & M3). rewrite H in M1. injection M1 as <-. auto.
Qed.

Lemma design_rows ds cs sp g fuel name n M : design_space ds cs = Ok sp -> Forall wf_kind (kinds sp) -> sampleable sp ->
  good_gen g -> In name ["random"; "sobol"]%string -> initial_design fuel name sp (g_dr g) (g_U g) n = Some (Ok M) ->
  length M = n /\ Forall (design_row (kinds sp)) M.
Proof.
  intros D W Sa (G1 & G2) [<-|[<-|[]]] H; unfold initial_design in H; simpl in H.
  - eapply random_design_rows; eauto.
  - injection H as H. eapply unit_design_rows; eauto.
Qed.

(** ---- unzipping design rows ---- *)
Lemma canonical_valid k x : canonical_cats k -> user_value k x -> valid_value k x.
Proof. destruct k; simpl; auto. Qed.
Lemma valid_encodable k x : valid_value k x -> encodable k x.
Proof. destruct k; simpl; auto. Qed.

Lemma encode_valid vs : Forall xv_ok vs -> forall pre xs, Forall2 valid_value (map x_kind vs) xs ->
  exists z, objective_to_model_from vs (length pre) (pre ++ xs) = Ok z /\ design_point (map x_kind vs) z.
Proof.
  induction 1 as [|v vs V H IH]; intros pre xs F; inversion F as [|? x ? xs' Hx Hxs]; subst; [exists []; split; [reflexivity|constructor]|].
  simpl. rewrite get_app_at. cbn [bind].
  destruct (encode_value v x V (valid_encodable _ _ Hx)) as (b & Eb & Cb & Lb). rewrite Eb. cbn [bind].
  destruct (IH (pre ++ [x]) xs' Hxs) as (z & Ez & Dz). rewrite app_length in Ez. simpl in Ez. rewrite Nat.add_1_r, <- app_assoc in Ez. simpl in Ez.
  rewrite Ez. cbn [bind]. eexists. split; [reflexivity|]. simpl. constructor; auto. eapply encodes_valid; eauto.
Qed.

Lemma unzip_rows sp X Z : space_facts sp -> Forall canonical_cats (kinds sp) -> bandit_free (kinds sp) -> has_bandit sp = false -> X <> [] ->
  Forall (design_row (kinds sp)) X -> unzip_inputs sp X = Ok Z -> Forall (design_point (kinds sp)) Z /\ length Z = length X.
Proof.
  intros F K B HB NX H E. unfold unzip_inputs in E. rewrite HB in E. apply bind_ok in E as (Z' & E & EZ). injection EZ as <-.
  pose proof (mapM_length _ _ _ E) as LZ. rewrite atleast_2d_ne by (destruct X, Z'; try congruence; discriminate). split; auto.
  apply mapM_ok_Forall2 in E. clear NX LZ. induction E as [|x z X Z Hz E IH]; [constructor|]. inversion H; subst. constructor; auto.
  pose proof (design_row_values _ _ B H2) as V.
  assert (V2 : Forall2 valid_value (map x_kind (sp_xvars sp)) x).
  { clear -V K. unfold kinds in *. induction V; [constructor|]. inversion K; subst. constructor; auto. apply canonical_valid; auto. }
  destruct (encode_valid _ (sf_ok _ F) [] x V2) as (z' & E1 & E2). unfold objective_to_model in Hz. simpl in E1. rewrite Hz in E1. injection E1 as <-. exact E2.
Qed.

(** ---- rounding block by block ---- *)
Lemma round_blocks (vs : list xvar) : Forall xv_ok vs -> Forall wf_kind (map x_kind vs) -> bandit_free (map x_kind vs) ->
  forall p x, length x = list_sum (map x_mdim vs) ->
  exists bs, round_from vs (length p) (p ++ x) = Ok (map R1 bs) /\ length bs = length vs /\
    forall row, map (nth_error row) (seq (length p) (length x)) = map Some (concat bs) ->
    forall co, Forall (fun v => exists a b, valid_block (x_kind v) b /\ (valid_block (x_kind v) a -> b = a) /\
        map (nth_error (p ++ x)) (x_idx_mod v) = map Some a /\ map (nth_error row) (x_idx_mod v) = map Some b) (set_indices vs co (length p)).
Proof.
  induction 1 as [|v vs V H IH]; intros W B p x L; simpl in W, B; inversion W as [|? ? W1 W2]; inversion B as [|? ? B1 B2]; subst.
  - exists []. simpl in *. repeat split; auto.
  - simpl in L. assert (exists a y, x = a ++ y /\ length a = x_mdim v /\ length y = list_sum (map x_mdim vs)) as (a & y & -> & La & Ly).
    { exists (firstn (x_mdim v) x), (skipn (x_mdim v) x). unfold vec in *. rewrite firstn_skipn, firstn_length, skipn_length. split; [auto|]. rewrite L. split; lia. }
    destruct (var_round_spec v a V W1 La) as (b & Rb & Vb & Mb). rewrite B1 in Rb.
    destruct (IH W2 B2 (p ++ a) y Ly) as (bs & R1' & L1 & P1). rewrite app_length, La in R1'.
    exists (b :: bs). split; [|split].
    + cbn [round_from]. assert (SL : slice (p ++ a ++ y) (length p) (x_mdim v) = a).
      { unfold slice. rewrite skipn_app, skipn_all, Nat.sub_diag. simpl. rewrite firstn_app, La, Nat.sub_diag. simpl. rewrite <- La, firstn_all. apply app_nil_r. }
      rewrite SL, Rb. cbn [bind]. rewrite app_assoc, R1'. reflexivity.
    + simpl. congruence.
    + intros row ER co. simpl in ER. rewrite app_length, seq_app, !map_app in ER.
      assert (Lb : length b = length a) by (rewrite La, V; apply valid_block_width; auto).
      apply app_split in ER as (ER1 & ER2); [|rewrite !map_length, seq_length; auto].
      assert (Q : exists a0 b0, valid_block (x_kind v) b0 /\ (valid_block (x_kind v) a0 -> b0 = a0) /\
         map (nth_error (p ++ a ++ y)) (seq (length p) (x_mdim v)) = map Some a0 /\ map (nth_error row) (seq (length p) (x_mdim v)) = map Some b0).
      { exists a, b. split; auto. split; [|split].
        - intro Va. specialize (Mb a Va). rewrite dist2_refl in Mb. symmetry. apply dist2_zero; auto.
        - rewrite <- La. apply (cols_block a y p).
        - rewrite <- La. exact ER1. }
      specialize (P1 row). rewrite app_length in P1. specialize (P1 ER2 (S co)). rewrite <- app_assoc in P1.
      simpl set_indices. unfold xv_ok in V. destruct (x_kind v) eqn:Kv; try discriminate; constructor; cbn [x_kind x_idx_mod]; auto;
        rewrite V in La, Q; cbn [width] in La, Q; try (rewrite La, Nat.add_1_r in P1); try rewrite La in P1; auto.
Qed.

Lemma round_keeps ds cs sp oc x r : design_space ds cs = Ok sp -> Forall wf_kind (kinds sp) -> good_context sp oc ->
  length x = model_dimensionality sp -> carries_opt sp oc x -> round_optimum sp [x] = Ok [r] ->
  design_point (kinds sp) r /\ carries_opt sp oc r.
Proof.
  intros D W G L K E.
  assert (Ro : roundable (kinds sp)). { destruct oc; simpl in G; [left; tauto|tauto]. }
  destruct (round_in_domain _ _ _ _ D W Ro L) as (r' & E' & Dr). rewrite E in E'. injection E' as <-. split; auto.
  destruct oc as [c|]; [|exact I]. simpl in *. destruct G as (B & NK & DN & U & KN & VO).
  pose proof D as D0. unfold design_space in D0. apply bind_ok in D0 as (vs & Hv & D0).
  apply bind_ok in D0 as (cfg & Hc & D0). apply bind_ok in D0 as (xss & Hx & D0).
  destruct (mapM_expand _ _ Hx) as (OK & _).
  assert (Ex : sp_xvars sp = set_indices (concat xss) 0 0) by (injection D0 as <-; reflexivity).
  assert (Ek : kinds sp = map x_kind (concat xss)) by (unfold kinds; rewrite Ex; apply set_indices_kind).
  assert (Lx : length x = list_sum (map x_mdim (concat xss))) by (rewrite L; unfold model_dimensionality; rewrite Ex, set_indices_mdim; reflexivity).
  rewrite Ek in W, B. destruct (round_blocks (concat xss) OK W B [] x Lx) as (bs & R & Lb & P). simpl in R, P.
  unfold round_optimum in E.
  assert (RF : forall vs co cm i y, round_from (set_indices vs co cm) i y = round_from vs i y).
  { induction vs0 as [|v t IHt]; intros co cm i y; simpl; auto. destruct (x_kind v) eqn:Kv; simpl; rewrite IHt; unfold var_round; simpl; rewrite Kv; reflexivity. }
  rewrite Ex, RF, R in E. cbn [bind] in E. unfold concat_rounded in E. destruct bs as [|b bs].
  { simpl in E. discriminate. }
  rewrite all_R1_map in E. simpl map in E. injection E as E.
  assert (Lr : length r = length x).
  { rewrite (design_point_length _ _ (eq_ind_r (Forall wf_kind) W Ek) Dr), L. symmetry. apply model_dim_width. eapply design_space_facts; eauto. }
  specialize (P r). cbn [concat] in P. rewrite E, <- Lr, cols_seq in P. specialize (P eq_refl 0). rewrite <- Ex in P. rewrite Forall_forall in P.
  intros n xv v Hn Hv' Nv. destruct (K n xv v Hn Hv' Nv) as (b0 & E0 & C0). destruct (P v Hv') as (a1 & b1 & V1 & V2 & C1 & C2).
  rewrite C0 in C1. apply map_Some_inj in C1. subst a1. exists b0. split; auto. rewrite C2. f_equal. apply V2.
  eapply encodes_valid; eauto.
Qed.
