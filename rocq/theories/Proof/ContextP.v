(** Lemmas about the context manager. *)
From Coq Require Import String List ZArith QArith Qcanon Bool Lia Permutation Sorting.Sorted.
From Verif.Model Require Import Py Space Design Optim.
From Verif.Spec Require Import SpaceSpec DesignSpec ContextSpec.
From Verif.Proof Require Import Num SpaceP RoundP ConstructP SpaceMain DesignP DesignMain.
Import ListNotations.
Local Open Scope nat_scope.

(** ---- lists ---- *)
Lemma NoDup_concat_inj {A} (f : A -> list nat) l : NoDup (concat (map f l)) ->
  forall v w j, In v l -> In w l -> In j (f v) -> In j (f w) -> v = w.
Proof.
  induction l as [|a l IH]; simpl; intros N v w j Hv Hw Jv Jw; [tauto|].
  assert (D : forall j, In j (f a) -> ~ In j (concat (map f l))).
  { intros i Hi Hi'. clear -N Hi Hi'. induction (f a) as [|b t IHt]; simpl in *; [tauto|]. inversion N; subst.
    destruct Hi as [->|Hi]; [apply H1; apply in_or_app; auto|auto]. }
  assert (N' : NoDup (concat (map f l))). { clear -N. induction (f a); simpl in *; auto. inversion N; auto. }
  assert (C : forall u, In u l -> In j (f u) -> In j (concat (map f l))).
  { intros u Hu Ju. apply in_concat. exists (f u). split; auto. apply in_map; auto. }
  destruct Hv as [<-|Hv], Hw as [<-|Hw]; auto.
  - exfalso. eapply D; eauto.
  - exfalso. eapply D; eauto.
  - eapply IH; eauto.
Qed.

Lemma mem_spec i l : mem i l = true <-> In i l.
Proof.
  unfold mem. rewrite existsb_exists. split.
  - intros (x & H & E). apply Nat.eqb_eq in E. subst; auto.
  - intro H. exists i. split; auto. apply Nat.eqb_refl.
Qed.
Lemma mem_false i l : mem i l = false <-> ~ In i l.
Proof. rewrite <- mem_spec. destruct (mem i l); split; intros; congruence. Qed.

Lemma set_cols_length dims : forall row vals, length (set_cols row dims vals) = length row.
Proof.
  induction dims as [|d dims IH]; intros row vals; simpl; auto. destruct vals; auto. rewrite IH. apply set_nth_length.
Qed.
Lemma set_cols_other dims : forall row vals j, ~ In j dims -> nth_error (set_cols row dims vals) j = nth_error row j.
Proof.
  induction dims as [|d dims IH]; intros row vals j H; simpl; auto. destruct vals; auto.
  rewrite IH by (simpl in H; tauto). apply nth_error_set_nth_ne. simpl in H. intuition.
Qed.
Lemma set_cols_same dims : forall row vals, NoDup dims -> Forall (fun d => d < length row) dims -> length vals = length dims ->
  map (nth_error (set_cols row dims vals)) dims = map Some vals.
Proof.
  induction dims as [|d dims IH]; intros row [|x vals] N F L; try discriminate; auto.
  inversion N; subst. inversion F; subst. simpl. f_equal.
  - rewrite set_cols_other by auto. apply nth_error_set_nth_eq; auto.
  - apply IH; auto. eapply Forall_impl; [|exact H4]. intros a Ha. rewrite set_nth_length. exact Ha.
Qed.

Lemma seq_StronglySorted n : forall s, StronglySorted lt (seq s n).
Proof.
  induction n as [|n IH]; intro s; simpl; constructor; auto. apply Forall_forall. intros x H. apply in_seq in H. lia.
Qed.
Lemma filter_StronglySorted {A} (R : A -> A -> Prop) p l : StronglySorted R l -> StronglySorted R (filter p l).
Proof.
  induction 1 as [|a l H IH F]; simpl; [constructor|]. destruct (p a); auto. constructor; auto.
  apply Forall_forall. intros x Hx. apply filter_In in Hx as (Hx & _). rewrite Forall_forall in F. auto.
Qed.
Lemma sorted_unique l : forall l', StronglySorted lt l -> StronglySorted lt l' -> (forall j, In j l <-> In j l') -> l = l'.
Proof.
  induction l as [|a l IH]; intros l' S S' E.
  - destruct l' as [|b l']; auto. exfalso. apply (E b). left; auto.
  - destruct l' as [|b l']. { exfalso. apply (E a). left; auto. }
    inversion S; subst. inversion S'; subst. rewrite Forall_forall in H2, H4.
    assert (a = b).
    { destruct (proj1 (E a) (or_introl eq_refl)) as [|Ha]; auto. destruct (proj2 (E b) (or_introl eq_refl)) as [|Hb]; auto.
      apply H4 in Ha. apply H2 in Hb. lia. }
    subst b. f_equal. apply IH; auto. intro j. split; intro Hj.
    + destruct (proj1 (E j) (or_intror Hj)) as [->|]; auto. apply H2 in Hj. lia.
    + destruct (proj2 (E j) (or_intror Hj)) as [->|]; auto. apply H4 in Hj. lia.
Qed.
Lemma sorted_NoDup l : StronglySorted lt l -> NoDup l.
Proof.
  induction 1 as [|a l H IH F]; constructor; auto. intro Ha. rewrite Forall_forall in F. apply F in Ha. lia.
Qed.
Lemma free_columns_unique sp c l l' : free_columns sp c l -> free_columns sp c l' -> l = l'.
Proof. intros (S1 & E1) (S2 & E2). apply sorted_unique; auto. intro j. rewrite E1, E2. tauto. Qed.

(** ---- layout of a space without bandits ---- *)
Record lay (sp : space) : Prop := {
  ly_facts : space_facts sp;
  ly_free : bandit_free (kinds sp);
  ly_mod : concat (map x_idx_mod (sp_xvars sp)) = seq 0 (model_dimensionality sp);
  ly_obj : map x_idx_obj (sp_xvars sp) = map (fun i => [i]) (seq 0 (length (sp_xvars sp)));
  ly_len : Forall (fun v => length (x_idx_mod v) = width (x_kind v)) (sp_xvars sp) }.

Lemma Forall2_map_r {A B C} (R : A -> C -> Prop) (f : B -> C) l l' :
  Forall2 R l (map f l') <-> Forall2 (fun a b => R a (f b)) l l'.
Proof.
  revert l'. induction l as [|a l IH]; intros [|b l']; simpl; split; intro H; inversion H; subst; constructor; auto; apply IH; auto.
Qed.
Lemma Forall2_map_l {A B C} (R : C -> B -> Prop) (f : A -> C) l l' :
  Forall2 R (map f l) l' <-> Forall2 (fun a b => R (f a) b) l l'.
Proof.
  revert l'. induction l as [|a l IH]; intros [|b l']; simpl; split; intro H; inversion H; subst; constructor; auto; apply IH; auto.
Qed.

Lemma set_indices_idx_len vs : Forall xv_ok vs -> bandit_free (map x_kind vs) -> forall co cm,
  Forall (fun v => length (x_idx_mod v) = width (x_kind v)) (set_indices vs co cm).
Proof.
  induction 1 as [|v vs O H IH]; intros B co cm; simpl; [constructor|]. inversion B; subst.
  destruct (x_kind v) eqn:E; simpl in *; try discriminate; constructor; simpl; auto; rewrite ?E; auto. rewrite seq_length. reflexivity.
Qed.

Lemma lay_space ds cs sp : design_space ds cs = Ok sp -> bandit_free (kinds sp) -> lay sp.
Proof.
  intros H B. pose proof (design_space_facts _ _ _ H) as F. unfold design_space in H.
  apply bind_ok in H as (vs & Hv & H). apply bind_ok in H as (cfg & Hc & H). apply bind_ok in H as (xss & Hx & H). injection H as <-.
  destruct (mapM_expand _ _ Hx) as (A & _).
  assert (B' : bandit_free (map x_kind (concat xss))). { unfold kinds in B. simpl in B. rewrite set_indices_kind in B. exact B. }
  destruct (set_indices_partition _ A B' 0 0) as (P1 & P2 & P3).
  constructor; auto; simpl.
  - rewrite P1. unfold model_dimensionality. simpl. rewrite set_indices_mdim. reflexivity.
  - rewrite set_indices_obj, set_indices_len. reflexivity.
  - apply set_indices_idx_len; auto.
Qed.

Lemma lay_NoDup_mod sp : lay sp -> NoDup (concat (map x_idx_mod (sp_xvars sp))).
Proof. intro L. rewrite (ly_mod _ L). apply seq_NoDup. Qed.
Lemma concat_singletons {A} (l : list A) : concat (map (fun i => [i]) l) = l.
Proof. induction l; simpl; congruence. Qed.
Lemma lay_obj_concat sp : lay sp -> concat (map x_idx_obj (sp_xvars sp)) = seq 0 (length (sp_xvars sp)).
Proof. intro L. rewrite (ly_obj _ L). apply concat_singletons. Qed.
Lemma lay_obj_at sp : lay sp -> forall v, In v (sp_xvars sp) -> exists i, x_idx_obj v = [i] /\ nth_error (sp_xvars sp) i = Some v.
Proof.
  intros L v Hv. apply In_nth_error in Hv as (i & Hi). exists i. split; auto.
  pose proof (f_equal (fun l => nth_error l i) (ly_obj _ L)) as E. simpl in E. rewrite !nth_error_map, Hi in E. simpl in E.
  assert (i < length (sp_xvars sp)) by (apply nth_error_Some; congruence).
  rewrite (nth_error_nth' _ 0) in E by (rewrite seq_length; auto). simpl in E. rewrite seq_nth in E by auto. simpl in E. congruence.
Qed.

(** ---- blocks and columns ---- *)
Lemma map_Some_inj {A} (l l' : list A) : map Some l = map Some l' -> l = l'.
Proof. revert l'. induction l; intros [|b l'] E; simpl in E; try discriminate; auto. injection E as -> E. f_equal; auto. Qed.
Lemma cols_seq (row : vec) : map (nth_error row) (seq 0 (length row)) = map Some row.
Proof. pose proof (cols_block row [] []) as H. simpl in H. rewrite app_nil_r in H. exact H. Qed.

Lemma blocks_to_cols (P : kind -> vec -> Prop) (row : vec) vs :
  (forall v b, In v vs -> P (x_kind v) b -> length b = length (x_idx_mod v)) ->
  forall z, blocks P (map x_kind vs) z -> map (nth_error row) (concat (map x_idx_mod vs)) = map Some z ->
  Forall (fun v => exists b, P (x_kind v) b /\ map (nth_error row) (x_idx_mod v) = map Some b) vs.
Proof.
  induction vs as [|v vs IH]; intros HP z Hz E; [constructor|]. simpl in Hz, E.
  inversion Hz as [|? ? b r Pb Pr]; subst. rewrite !map_app in E.
  assert (L : length (map (nth_error row) (x_idx_mod v)) = length (map Some b)).
  { rewrite !map_length. symmetry. apply HP; simpl; auto. }
  assert (E1 : map (nth_error row) (x_idx_mod v) = map Some b /\ map (nth_error row) (concat (map x_idx_mod vs)) = map Some r).
  { revert E L. generalize (map (nth_error row) (x_idx_mod v)) as u. generalize (map (@Some Qc) b) as w.
    induction w as [|y w IHw]; intros [|x u] E L; simpl in *; try discriminate; auto.
    injection E as -> E. destruct (IHw u E); auto. subst. auto. }
  destruct E1 as (E1 & E2). constructor; [exists b; auto|]. apply (IH) with (z := r); auto. intros; apply HP; simpl; auto.
Qed.
Lemma cols_to_blocks (P : kind -> vec -> Prop) (row : vec) vs :
  Forall (fun v => exists b, P (x_kind v) b /\ map (nth_error row) (x_idx_mod v) = map Some b) vs ->
  exists z, blocks P (map x_kind vs) z /\ map (nth_error row) (concat (map x_idx_mod vs)) = map Some z.
Proof.
  induction 1 as [|v vs (b & Pb & Eb) H (z & Bz & Ez)]; [exists []; split; constructor|].
  exists (b ++ z). split; [constructor; auto|]. simpl. rewrite !map_app. congruence.
Qed.

(** A row is a concatenation of blocks iff its columns hold the blocks. *)
Lemma lay_blocks_cols (P : kind -> vec -> Prop) sp row : lay sp ->
  (forall k b, In k (kinds sp) -> P k b -> length b = width k) -> blocks P (kinds sp) row ->
  Forall (fun v => exists b, P (x_kind v) b /\ map (nth_error row) (x_idx_mod v) = map Some b) (sp_xvars sp).
Proof.
  intros L HP H. pose proof (ly_len _ L) as LL. rewrite Forall_forall in LL.
  assert (HP' : forall v b, In v (sp_xvars sp) -> P (x_kind v) b -> length b = length (x_idx_mod v)).
  { intros v b Hv Hb. rewrite LL by auto. apply HP; auto. apply in_map; auto. }
  apply (blocks_to_cols P row _ HP' row H). rewrite (ly_mod _ L).
  assert (length row = model_dimensionality sp).
  { rewrite (model_dim_width _ (ly_facts _ L)). clear -H HP. unfold kinds in *. induction H as [|k ks b r Pb Pr IH]; simpl in *; auto.
    unfold total_width in *. simpl. rewrite app_length, IH by (intros; apply HP; auto). rewrite (HP k b); auto. }
  rewrite <- H0. apply cols_seq.
Qed.
Lemma lay_cols_blocks (P : kind -> vec -> Prop) sp row : lay sp -> length row = model_dimensionality sp ->
  Forall (fun v => exists b, P (x_kind v) b /\ map (nth_error row) (x_idx_mod v) = map Some b) (sp_xvars sp) ->
  blocks P (kinds sp) row.
Proof.
  intros L Len H. destruct (cols_to_blocks _ _ _ H) as (z & Bz & Ez). rewrite (ly_mod _ L), <- Len, cols_seq in Ez.
  apply map_Some_inj in Ez. subst. exact Bz.
Qed.

(** ---- encoding of context values ---- *)
Lemma encode_value v x : xv_ok v -> encodable (x_kind v) x ->
  exists b, var_objective_to_model v x = Ok b /\ encodes (x_kind v) x b /\ length b = width (x_kind v).
Proof.
  intros O E. unfold var_objective_to_model. unfold xv_ok in O. destruct (x_kind v) eqn:K; simpl in E.
  - exists [x]. repeat split; auto.
  - exists [x]. repeat split; auto.
  - tauto.
  - destruct E as (n & Hn & ->). rewrite O. simpl. rewrite py_int_nat2q, py_index_nat by auto.
    eexists. split; [reflexivity|]. split; [|rewrite set_nth_length, repeat_length; reflexivity].
    exists n. split; auto. apply one_hot_set_nth; auto.
Qed.
Lemma encodes_unique k x b b' : encodes k x b -> encodes k x b' -> b = b'.
Proof.
  destruct k; simpl; intros H H'; try congruence; try tauto.
  destruct H as (i & -> & H), H' as (j & E & H'). apply nat2q_inj in E. subst j. eapply one_hot_unique; eauto.
Qed.
Lemma encodes_valid k x b : valid_value k x -> encodes k x b -> valid_block k b.
Proof.
  destruct k; simpl; intros V E; try tauto.
  - subst. exists x. auto.
  - subst. exists x. auto.
  - destruct E as (i & -> & E). exists i. auto.
Qed.

(** ---- the context loop ---- *)
Definition ctx_entry (sp : space) (p : string * Qc) (v : xvar) (e : vec) : Prop :=
  find_variable sp (fst p) = Ok v /\ is_bandit (x_kind v) = false /\ var_objective_to_model v (snd p) = Ok e.

Inductive entries (sp : space) : context -> list xvar -> list vec -> Prop :=
| entries_nil : entries sp [] [] []
| entries_cons p v e c vs es : ctx_entry sp p v e -> entries sp c vs es -> entries sp (p :: c) (v :: vs) (e :: es).

Lemma context_loop_ok sp c vs es : entries sp c vs es -> forall ci co cv,
  context_loop sp c ci co cv = Ok (ci ++ concat (map x_idx_mod vs), co ++ concat (map x_idx_obj vs), cv ++ concat es).
Proof.
  induction 1 as [|[n x] v e c vs es (F & B & V) H IH]; intros ci co cv; simpl.
  - rewrite !app_nil_r. reflexivity.
  - simpl in F, V. rewrite F. simpl. rewrite B, V. simpl. rewrite IH. rewrite <- !app_assoc. reflexivity.
Qed.

Lemma entries_exist sp c : lay sp -> distinct_names sp -> names_known sp c -> values_ok encodable sp c ->
  exists vs es, entries sp c vs es /\ Forall2 (fun p v => In v (sp_xvars sp) /\ x_name v = fst p) c vs /\
    Forall2 (fun pv e => encodes (x_kind (snd pv)) (snd (fst pv)) e /\ length e = length (x_idx_mod (snd pv))) (combine c vs) es.
Proof.
  intros L D. induction c as [|[n x] c IH]; intros K V.
  - exists [], []. repeat split; constructor.
  - destruct IH as (vs & es & H1 & H2 & H3).
    { intros m Hm. apply K. simpl. auto. } { intros m y v Hm. apply V. simpl. auto. }
    destruct (K n (or_introl eq_refl)) as (v & Hv & Nv).
    assert (EV : encodable (x_kind v) x) by (eapply V; simpl; eauto).
    pose proof (sf_ok _ (ly_facts _ L)) as O. rewrite Forall_forall in O.
    destruct (encode_value v x (O v Hv) EV) as (e & E1 & E2 & E3).
    pose proof (ly_len _ L) as LL. rewrite Forall_forall in LL.
    exists (v :: vs), (e :: es). split; [|split].
    + constructor; auto. split; [|split; auto].
      * apply find_variable_spec; auto.
      * pose proof (ly_free _ L) as B. unfold bandit_free, kinds in B. rewrite Forall_map, Forall_forall in B. auto.
    + constructor; auto.
    + simpl. constructor; auto. simpl. split; auto. rewrite LL; auto.
Qed.

(** ---- free variables ---- *)
Definition free_var (c : context) (v : xvar) : bool := negb (existsb (String.eqb (x_name v)) (map fst c)).
Lemma free_var_true c v : free_var c v = true <-> ~ In (x_name v) (map fst c).
Proof.
  unfold free_var. rewrite negb_true_iff. split.
  - intros E H. assert (existsb (String.eqb (x_name v)) (map fst c) = true) by (apply existsb_exists; eexists; split; eauto; apply String.eqb_refl). congruence.
  - intro H. apply not_true_is_false. intro E. apply existsb_exists in E as (y & Hy & E). apply String.eqb_eq in E. subst. auto.
Qed.
Lemma free_var_false c v : free_var c v = false <-> In (x_name v) (map fst c).
Proof.
  destruct (free_var c v) eqn:E; split; intro H; try congruence.
  - apply free_var_true in E. tauto.
  - destruct (in_dec string_dec (x_name v) (map fst c)); auto. apply free_var_true in n. congruence.
Qed.

Lemma filter_concat (f : xvar -> list nat) (ci : list nat) c vs :
  (forall v j, In v vs -> In j (f v) -> (In j ci <-> free_var c v = false)) ->
  filter (fun i => negb (mem i ci)) (concat (map f vs)) = concat (map f (filter (free_var c) vs)).
Proof.
  induction vs as [|v vs IH]; intro H; simpl; auto. rewrite filter_app, IH by (intros; apply H; simpl; auto).
  destruct (free_var c v) eqn:E; simpl; f_equal.
  - assert (HH : forall j, In j (f v) -> ~ In j ci) by (intros j Hj; rewrite (H v j); simpl; auto; congruence).
    clear -HH. induction (f v) as [|j l IHl]; simpl in *; auto.
    replace (mem j ci) with false by (symmetry; apply mem_false; auto). simpl. f_equal. apply IHl; auto.
  - assert (HH : forall j, In j (f v) -> In j ci) by (intros j Hj; apply (H v j); simpl; auto).
    clear -HH. induction (f v) as [|j l IHl]; simpl in *; auto.
    replace (mem j ci) with true by (symmetry; apply mem_spec; auto). simpl. apply IHl; auto.
Qed.

Lemma ctx_cols (f : xvar -> list nat) sp c vs : NoDup (concat (map f (sp_xvars sp))) -> distinct_names sp ->
  Forall2 (fun p v => In v (sp_xvars sp) /\ x_name v = fst p) c vs ->
  forall v j, In v (sp_xvars sp) -> In j (f v) -> (In j (concat (map f vs)) <-> free_var c v = false).
Proof.
  intros N D H v j Hv Hj. rewrite free_var_false. split.
  - intro I. apply in_concat in I as (l & Hl & Jl). apply in_map_iff in Hl as (w & <- & Hw).
    assert (In w (sp_xvars sp) /\ In (x_name w) (map fst c)) as (W1 & W2).
    { clear -H Hw. induction H as [|p u c vs (A & B) H IH]; simpl in *; [tauto|]. destruct Hw as [->|Hw]; [split; auto|].
      destruct (IH Hw); auto. }
    rewrite (NoDup_concat_inj f _ N v w j); auto.
  - intro I. apply in_map_iff in I as ((n & x) & En & Ip). simpl in En.
    assert (In v vs).
    { clear -H Ip En D Hv. induction H as [|p u c vs (A & B) H IH]; simpl in *; [tauto|]. destruct Ip as [->|Ip]; auto. left. simpl in B.
      assert (x_name u = x_name v) by congruence. clear -D A Hv H0. unfold distinct_names in D.
      induction (sp_xvars sp) as [|a l IHl]; simpl in *; [tauto|]. inversion D; subst.
      destruct A as [->|A], Hv as [->|Hv]; auto; exfalso; apply H2; [rewrite H0|rewrite <- H0]; apply in_map; auto. }
    apply in_concat. exists (f v). split; auto. apply in_map; auto.
Qed.

(** ---- summary of a context manager ---- *)
Record cm_ok (sp : space) (c : context) (cm : ctxmgr) (vs : list xvar) (es : list vec) : Prop := {
  co_space : cm_space cm = sp;
  co_entries : entries sp c vs es;
  co_vars : Forall2 (fun p v => In v (sp_xvars sp) /\ x_name v = fst p) c vs;
  co_enc : Forall2 (fun pv e => encodes (x_kind (snd pv)) (snd (fst pv)) e /\ length e = length (x_idx_mod (snd pv))) (combine c vs) es;
  co_ci : cm_context_index cm = concat (map x_idx_mod vs);
  co_cv : cm_context_value cm = concat es;
  co_nci' : cm_noncontext_index cm = filter (fun i => negb (mem i (cm_context_index cm))) (seq 0 (model_dimensionality sp));
  co_nci : cm_noncontext_index cm = concat (map x_idx_mod (filter (free_var c) (sp_xvars sp)));
  co_ncio : length (sp_config_expanded sp) = length (sp_xvars sp) ->
            cm_nocontext_index_obj cm = concat (map x_idx_obj (filter (free_var c) (sp_xvars sp)));
  co_bounds : exists bs, get_bounds sp = Ok bs /\ map (nth_error bs) (cm_noncontext_index cm) = map Some (cm_noncontext_bounds cm) }.

Definition as_context (oc : option context) : context := match oc with Some c => c | None => [] end.

Lemma filter_all {A} (p : A -> bool) l : (forall a, p a = true) -> filter p l = l.
Proof. intro H. induction l; simpl; auto. rewrite H. congruence. Qed.

Lemma context_manager_ok sp oc : lay sp -> Forall wf_kind (kinds sp) -> distinct_names sp -> names_known sp (as_context oc) ->
  values_ok encodable sp (as_context oc) ->
  exists cm vs es, context_manager sp oc = Ok cm /\ cm_ok sp (as_context oc) cm vs es.
Proof.
  intros L W D K V. destruct (get_bounds_spec sp (ly_facts _ L) W (ly_free _ L)) as (bs & Hb & Lb & _).
  destruct (entries_exist sp (as_context oc) L D K V) as (vs & es & H1 & H2 & H3).
  unfold context_manager. rewrite Hb. cbn [bind].
  assert (NC : filter (fun i => negb (mem i (concat (map x_idx_mod vs)))) (seq 0 (model_dimensionality sp)) =
               concat (map x_idx_mod (filter (free_var (as_context oc)) (sp_xvars sp)))).
  { rewrite <- (ly_mod _ L). apply filter_concat. intros v j Hv Hj. eapply ctx_cols; eauto. apply lay_NoDup_mod; auto. }
  assert (NO : filter (fun i => negb (mem i (concat (map x_idx_obj vs)))) (seq 0 (length (sp_xvars sp))) =
               concat (map x_idx_obj (filter (free_var (as_context oc)) (sp_xvars sp)))).
  { rewrite <- (lay_obj_concat _ L). apply filter_concat. intros v j Hv Hj. eapply ctx_cols; eauto. rewrite (lay_obj_concat _ L). apply seq_NoDup. }
  destruct oc as [c|]; simpl as_context in *.
  - rewrite (context_loop_ok _ _ _ _ H1). cbn [bind fst snd app].
    assert (G : forall l, Forall (fun j => j < length bs) l -> exists nb, mapM (get bs) l = Ok nb /\ map (nth_error bs) l = map Some nb).
    { induction 1 as [|j l Hj H (nb & N1 & N2)]; [exists []; auto|]. destruct (nth_error bs j) as [b|] eqn:E.
      - exists (b :: nb). cbn [mapM map]. replace (get bs j) with (Ok b) by (unfold get; rewrite E; reflexivity). cbn [bind]. rewrite N1. cbn [bind]. rewrite N2, E. auto.
      - apply nth_error_None in E. lia. }
    destruct (G (filter (fun i => negb (mem i (concat (map x_idx_mod vs)))) (seq 0 (model_dimensionality sp)))) as (nb & N1 & N2).
    { apply Forall_forall. intros j Hj. apply filter_In in Hj as (Hj & _). apply in_seq in Hj. lia. }
    rewrite N1. cbn [bind]. eexists. exists vs, es. split; [reflexivity|].
    constructor; cbn [cm_space cm_context_index cm_context_value cm_noncontext_index cm_nocontext_index_obj cm_noncontext_bounds]; auto.
    + intro E. rewrite E. exact NO.
    + exists bs. auto.
  - inversion H1; subst. eexists. exists [], []. split; [reflexivity|].
    constructor; cbn [cm_space cm_context_index cm_context_value cm_noncontext_index cm_nocontext_index_obj cm_noncontext_bounds]; auto.
    + symmetry. apply filter_all. reflexivity.
    + rewrite <- NC. symmetry. apply filter_all. reflexivity.
    + intro E. rewrite E, <- NO. symmetry. apply filter_all. reflexivity.
    + exists bs. split; auto. rewrite <- Lb. clear -Lb. 
      assert (G : forall p l, map (nth_error (p ++ l)) (seq (length p) (length l)) = map (@Some (Qc * Qc)) l).
      { intros p l. revert p. induction l as [|a l IH]; intro p; simpl; auto. f_equal.
        - rewrite nth_error_app2, Nat.sub_diag by lia. reflexivity.
        - specialize (IH (p ++ [a])). rewrite <- app_assoc, app_length in IH. simpl in IH. rewrite Nat.add_1_r in IH. exact IH. }
      apply (G [] bs).
Qed.
