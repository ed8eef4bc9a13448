(** C17, C18, C20: the context manager. *)
From Coq Require Import String List ZArith QArith Qcanon Bool Lia Permutation Sorting.Sorted.
From Verif.Model Require Import Py Space Design Optim.
From Verif.Spec Require Import SpaceSpec DesignSpec ContextSpec.
From Verif.Proof Require Import Num SpaceP RoundP ConstructP SpaceMain DesignP DesignMain ContextP.
Import ListNotations.
Local Open Scope nat_scope.

Lemma NoDup_concat_part {A} (f : A -> list nat) l v : NoDup (concat (map f l)) -> In v l -> NoDup (f v).
Proof.
  induction l as [|a l IH]; simpl; intros N H; [tauto|].
  assert (NoDup (f a) /\ NoDup (concat (map f l))) as (N1 & N2).
  { clear -N. induction (f a) as [|b t IHt]; simpl in *; [split; auto; constructor|]. inversion N; subst.
    destruct IHt; auto. split; auto. constructor; auto. intro. apply H1. apply in_or_app; auto. }
  destruct H as [->|H]; auto.
Qed.
Lemma NoDup_sub (f : xvar -> list nat) all vs : NoDup (concat (map f all)) -> Forall (fun v => In v all) vs ->
  NoDup (map x_name vs) -> NoDup (concat (map f vs)).
Proof.
  intros N. induction 1 as [|v vs Hv H IH]; intro D; [constructor|]. inversion D; subst. simpl.
  apply NoDup_app2; auto.
  - eapply NoDup_concat_part; eauto.
  - intros j Jv Jw. apply in_concat in Jw as (l & Hl & Jl). apply in_map_iff in Hl as (w & <- & Hw).
    rewrite Forall_forall in H. assert (v = w) by (eapply NoDup_concat_inj; eauto). subst w.
    apply H2. apply in_map. exact Hw.
Qed.

Lemma map_eq_in {A B} (f g : A -> B) l j : map f l = map g l -> In j l -> f j = g j.
Proof. induction l as [|a l IH]; simpl; intros E H; [tauto|]. injection E as E1 E2. destruct H as [->|H]; auto. Qed.

Lemma vars_in sp c vs : Forall2 (fun (p : string * Qc) v => In v (sp_xvars sp) /\ x_name v = fst p) c vs ->
  Forall (fun v => In v (sp_xvars sp)) vs /\ map x_name vs = map fst c.
Proof. induction 1 as [|p v c vs (A & B) H (I1 & I2)]; simpl; split; auto. congruence. Qed.

Lemma lay_idx_bound sp v j : lay sp -> In v (sp_xvars sp) -> In j (x_idx_mod v) -> j < model_dimensionality sp.
Proof.
  intros L Hv Hj. assert (In j (concat (map x_idx_mod (sp_xvars sp)))).
  { apply in_concat. exists (x_idx_mod v). split; auto. apply in_map; auto. }
  rewrite (ly_mod _ L) in H. apply in_seq in H. lia.
Qed.

Section CM.
  Variables (sp : space) (c : context) (cm : ctxmgr) (vs : list xvar) (es : list vec).
  Hypothesis L : lay sp.
  Hypothesis D : distinct_names sp.
  Hypothesis U : is_dict c.
  Hypothesis C : cm_ok sp c cm vs es.

  Lemma ci_NoDup : NoDup (cm_context_index cm).
  Proof.
    rewrite (co_ci _ _ _ _ _ C). destruct (vars_in _ _ _ (co_vars _ _ _ _ _ C)) as (I & N).
    eapply NoDup_sub; eauto. apply lay_NoDup_mod; auto. rewrite N. exact U.
  Qed.
  Lemma ci_column j : In j (cm_context_index cm) <-> context_column sp c j.
  Proof.
    rewrite (co_ci _ _ _ _ _ C). destruct (vars_in _ _ _ (co_vars _ _ _ _ _ C)) as (I & N). rewrite Forall_forall in I. split.
    - intro H. apply in_concat in H as (l & Hl & Jl). apply in_map_iff in Hl as (w & <- & Hw). exists w. split; auto. split; auto.
      rewrite <- N. apply in_map; auto.
    - intros (v & Hv & Nv & Jv). eapply (ctx_cols x_idx_mod sp c vs); eauto using lay_NoDup_mod, (co_vars _ _ _ _ _ C).
      apply free_var_false; auto.
  Qed.
  Lemma ci_bound : Forall (fun j => j < model_dimensionality sp) (cm_context_index cm).
  Proof. apply Forall_forall. intros j Hj. apply ci_column in Hj as (v & Hv & _ & Jv). eapply lay_idx_bound; eauto. Qed.
  Lemma nci_free : free_columns sp c (cm_noncontext_index cm).
  Proof.
    rewrite (co_nci' _ _ _ _ _ C). split.
    - apply filter_StronglySorted, seq_StronglySorted.
    - intro j. rewrite filter_In, in_seq, negb_true_iff, mem_false, ci_column. simpl. intuition lia.
  Qed.
  Lemma nci_NoDup : NoDup (cm_noncontext_index cm).
  Proof. apply sorted_NoDup, (proj1 nci_free). Qed.
  Lemma nci_bound : Forall (fun j => j < model_dimensionality sp) (cm_noncontext_index cm).
  Proof. apply Forall_forall. intros j Hj. apply (proj2 nci_free) in Hj. tauto. Qed.
  Lemma ci_nci_disjoint j : In j (cm_noncontext_index cm) -> ~ In j (cm_context_index cm).
  Proof. rewrite ci_column. intro H. apply (proj2 nci_free) in H. tauto. Qed.
  Lemma cv_length : length (cm_context_value cm) = length (cm_context_index cm).
  Proof.
    rewrite (co_cv _ _ _ _ _ C), (co_ci _ _ _ _ _ C). pose proof (co_enc _ _ _ _ _ C) as E. pose proof (co_vars _ _ _ _ _ C) as V.
    clear -E V. revert es E. induction V as [|p v c vs A V IH]; intros es E; inversion E; subst; simpl; auto.
    rewrite !app_length, (IH _ H3). simpl in H1. destruct H1 as (_ & ->). reflexivity.
  Qed.

  Lemma expand_ok v : length v = length (cm_noncontext_index cm) ->
    exists row, expand_row cm v = Ok row /\ length row = model_dimensionality sp /\
      map (nth_error row) (cm_noncontext_index cm) = map Some v /\
      map (nth_error row) (cm_context_index cm) = map Some (cm_context_value cm).
  Proof.
    intro H. unfold expand_row. rewrite H, Nat.eqb_refl. cbn [bind]. eexists. split; [reflexivity|].
    rewrite (co_space _ _ _ _ _ C).
    set (r0 := repeat q0 (model_dimensionality sp)). set (r1 := set_cols r0 (cm_noncontext_index cm) v).
    assert (L0 : length r0 = model_dimensionality sp) by apply repeat_length.
    assert (L1 : length r1 = model_dimensionality sp) by (unfold r1; rewrite set_cols_length; exact L0).
    split; [|split].
    - rewrite set_cols_length. exact L1.
    - transitivity (map (nth_error r1) (cm_noncontext_index cm)).
      + apply map_ext_in. intros j Hj. apply set_cols_other. apply ci_nci_disjoint; auto.
      + apply set_cols_same; auto using nci_NoDup. rewrite L0. apply nci_bound.
    - apply set_cols_same; auto using ci_NoDup, cv_length. rewrite L1. apply ci_bound.
  Qed.

  Lemma app_split {A} (a b a' b' : list A) : length a = length a' -> a ++ b = a' ++ b' -> a = a' /\ b = b'.
  Proof.
    revert a'. induction a as [|x a IH]; intros [|x' a'] LL Q; simpl in *; try discriminate; auto.
    injection Q as -> Q. destruct (IH a'); auto. subst; auto.
  Qed.
  Lemma same_name v w : In v (sp_xvars sp) -> In w (sp_xvars sp) -> x_name v = x_name w -> v = w.
  Proof.
    intros Hv Hw NN. clear -D Hv Hw NN. unfold distinct_names in D. revert D Hv Hw.
    induction (sp_xvars sp) as [|a l IHl]; simpl in *; [tauto|]. intros D Hv Hw. inversion D; subst.
    destruct Hv as [->|Hv], Hw as [->|Hw]; auto; exfalso; apply H1; [rewrite NN|rewrite <- NN]; apply in_map; auto.
  Qed.
  Lemma carries_iff row : carries sp c row <-> map (nth_error row) (cm_context_index cm) = map Some (cm_context_value cm).
  Proof.
    rewrite (co_cv _ _ _ _ _ C), (co_ci _ _ _ _ _ C). pose proof (co_enc _ _ _ _ _ C) as E. pose proof (co_vars _ _ _ _ _ C) as V.
    clear C. revert es E U. induction V as [|p v c' vs' (A1 & A2) V IH]; intros es' E U'.
    - inversion E; subst. simpl. split; [reflexivity|]. intros _ n x v [].
    - inversion E as [|x0 e vs0 es0 Q1 Q2]; subst. destruct Q1 as (Enc & Len). unfold is_dict in U'.
      assert (U2 : is_dict c') by (unfold is_dict; simpl in U'; inversion U'; assumption).
      specialize (IH _ Q2 U2). cbn [fst snd] in *.
      cbn [map concat]. rewrite !map_app. split.
      + intro K. f_equal.
        * destruct (K (fst p) (snd p) v) as (b & B1 & B2); [left; destruct p; auto|auto|auto|].
          rewrite B2. f_equal. eapply encodes_unique; eauto.
        * apply IH. intros n x w Hn. apply K. right; auto.
      + intros Q n x w Hn Hw Nw. apply app_split in Q as (Qa & Qb); [|rewrite !map_length; auto].
        destruct Hn as [->|Hn].
        * assert (w = v) by (apply same_name; auto; rewrite Nw, A2; reflexivity). subst w. exists e. auto.
        * apply (proj2 IH Qb n x w); auto.
  Qed.

  Lemma restricts_iff row v : restricts sp c row v <-> map (nth_error row) (cm_noncontext_index cm) = map Some v.
  Proof.
    split.
    - intros (js & F & E). rewrite (free_columns_unique _ _ _ _ nci_free F). exact E.
    - intro E. exists (cm_noncontext_index cm). split; auto. apply nci_free.
  Qed.

  Lemma row_determined row row' v : length row = model_dimensionality sp -> length row' = model_dimensionality sp ->
    carries sp c row -> carries sp c row' -> restricts sp c row v -> restricts sp c row' v -> row = row'.
  Proof.
    intros L1 L2 K1 K2 R1 R2. apply carries_iff in K1, K2. apply restricts_iff in R1, R2.
    apply nth_error_ext. intro j. destruct (Nat.lt_ge_cases j (model_dimensionality sp)) as [Hj|Hj].
    - assert (EE : forall l, map (nth_error row) l = map (nth_error row') l -> In j l -> nth_error row j = nth_error row' j).
      { induction l as [|a l IH]; simpl; intros E H; [tauto|]. injection E as E1 E2. destruct H as [->|H]; auto. }
      destruct (in_dec Nat.eq_dec j (cm_context_index cm)) as [I|I].
      + apply (EE (cm_context_index cm)); auto. congruence.
      + apply (EE (cm_noncontext_index cm)); [congruence|]. apply (proj2 nci_free). rewrite ci_column in I. auto.
    - transitivity (@None Qc); [apply nth_error_None; lia|symmetry; apply nth_error_None; lia].
  Qed.

  (** expansion commutes with nudging a coordinate *)
  Lemma expand_nudge v row j i h : length v = length (cm_noncontext_index cm) -> expand_row cm v = Ok row ->
    nth_error (cm_noncontext_index cm) j = Some i -> expand_row cm (nudge v j h) = Ok (nudge row i h).
  Proof.
    intros Lv E Hi. destruct (expand_ok v Lv) as (row0 & E0 & Lr & N0 & C0). rewrite E in E0. injection E0 as <-.
    assert (Hj : j < length v) by (rewrite Lv; apply nth_error_Some; congruence).
    destruct (nth_error v j) as [x|] eqn:X; [|apply nth_error_None in X; lia].
    assert (Ri : nth_error row i = Some x).
    { pose proof (f_equal (fun l => nth_error l j) N0) as Q. simpl in Q. rewrite !nth_error_map, Hi, X in Q. simpl in Q. congruence. }
    assert (Hil : i < length row) by (apply nth_error_Some; congruence).
    unfold nudge. rewrite X, Ri. destruct (expand_ok (set_nth v j (x + h)%Qc)) as (row1 & E1 & L1 & N1 & C1); [rewrite set_nth_length; auto|].
    rewrite E1. f_equal.
    apply row_determined with (v := set_nth v j (x + h)%Qc); auto.
    - rewrite set_nth_length; auto.
    - apply carries_iff; auto.
    - apply carries_iff. rewrite <- C0. apply map_ext_in. intros k Hk. apply nth_error_set_nth_ne. intros ->.
      apply nth_error_In in Hi. apply ci_nci_disjoint in Hi. auto.
    - apply restricts_iff; auto.
    - apply restricts_iff. apply nth_error_ext. intro k. rewrite !nth_error_map.
      destruct (Nat.eq_dec k j) as [->|Hk].
      + rewrite Hi. simpl. rewrite !nth_error_set_nth_eq by auto. reflexivity.
      + rewrite (nth_error_set_nth_ne v j k) by auto.
        pose proof (f_equal (fun l => nth_error l k) N0) as Q. simpl in Q. rewrite !nth_error_map in Q.
        destruct (nth_error (cm_noncontext_index cm) k) as [i'|] eqn:I'; simpl in *; auto.
        rewrite nth_error_set_nth_ne; auto. intros ->.
        apply Hk. pose proof nci_NoDup as N. rewrite NoDup_nth_error in N. apply N; [|congruence].
        apply nth_error_Some. congruence.
  Qed.
End CM.

Lemma context_expand_main ds cs sp c : design_space ds cs = Ok sp -> Forall wf_kind (kinds sp) -> bandit_free (kinds sp) ->
  distinct_names sp -> is_dict c -> names_known sp c -> values_ok encodable sp c ->
  exists cm, context_manager sp (Some c) = Ok cm /\
    (forall v, length v = length (cm_noncontext_index cm) ->
       exists row, expand_vector cm [v] = Ok [row] /\ length row = model_dimensionality sp /\
         carries sp c row /\ restricts sp c row v) /\
    (forall row, length row = model_dimensionality sp -> carries sp c row ->
       exists v, length v = length (cm_noncontext_index cm) /\ restricts sp c row v /\ expand_vector cm [v] = Ok [row]) /\
    (forall X, X <> [] -> Forall (fun v => length v = length (cm_noncontext_index cm)) X ->
       exists rows, expand_vector cm X = Ok rows /\ Forall2 (fun v row => expand_vector cm [v] = Ok [row]) X rows).
Proof.
  intros H W B D U K V. pose proof (lay_space _ _ _ H B) as L.
  destruct (context_manager_ok sp (Some c) L W D K V) as (cm & vs & es & E & C). simpl as_context in *.
  exists cm. split; auto.
  assert (S1 : forall v row, expand_row cm v = Ok row -> expand_vector cm [v] = Ok [row]).
  { intros v row E1. unfold expand_vector. simpl. rewrite E1. reflexivity. }
  split; [|split].
  - intros v Lv. destruct (expand_ok _ _ _ _ _ L D U C v Lv) as (row & E1 & E2 & E3 & E4). exists row. split; auto. split; auto.
    split; [eapply carries_iff; eauto|eapply restricts_iff; eauto].
  - intros row Lr Cr. pose proof (nci_bound _ _ _ _ _ L D C) as NB. rewrite <- Lr in NB.
    assert (exists v, map (nth_error row) (cm_noncontext_index cm) = map Some v) as (v & Ev).
    { clear -NB. induction NB as [|j l Hj NB (v & IH)]; [exists []; auto|]. destruct (nth_error row j) as [x|] eqn:X.
      - exists (x :: v). simpl. congruence.
      - apply nth_error_None in X. lia. }
    assert (Lv : length v = length (cm_noncontext_index cm)) by (apply (f_equal (@length _)) in Ev; rewrite !map_length in Ev; auto).
    exists v. split; auto. assert (R : restricts sp c row v) by (eapply restricts_iff; eauto). split; auto. apply S1.
    destruct (expand_ok _ _ _ _ _ L D U C v Lv) as (row' & E1 & E2 & E3 & E4). rewrite E1. f_equal.
    eapply row_determined with (v := v); eauto; [eapply carries_iff|eapply restricts_iff]; eauto.
  - intros X NX F. unfold expand_vector at 1. rewrite atleast_2d_ne by auto.
    assert (exists rows, Forall2 (fun v row => expand_row cm v = Ok row) X rows) as (rows & R).
    { clear -F L D U C. induction F as [|v X Lv F (rows & IH)]; [exists []; constructor|].
      destruct (expand_ok _ _ _ _ _ L D U C v Lv) as (row & E1 & _). exists (row :: rows). constructor; auto. }
    exists rows. split; [apply mapM_ok_Forall2; exact R|]. clear -R S1. induction R; constructor; auto.
Qed.

Lemma context_partition_main ds cs sp c cm : design_space ds cs = Ok sp -> Forall wf_kind (kinds sp) -> bandit_free (kinds sp) ->
  distinct_names sp -> is_dict c -> names_known sp c -> values_ok encodable sp c -> context_manager sp (Some c) = Ok cm ->
  NoDup (cm_context_index cm) /\ (forall j, In j (cm_context_index cm) <-> context_column sp c j) /\
  free_columns sp c (cm_noncontext_index cm) /\
  Permutation (cm_context_index cm ++ cm_noncontext_index cm) (seq 0 (model_dimensionality sp)) /\
  exists bs, get_bounds sp = Ok bs /\ map (nth_error bs) (cm_noncontext_index cm) = map Some (cm_noncontext_bounds cm).
Proof.
  intros H W B D U K V E. pose proof (lay_space _ _ _ H B) as L.
  destruct (context_manager_ok sp (Some c) L W D K V) as (cm' & vs & es & E' & C). simpl as_context in *.
  rewrite E in E'. injection E' as <-.
  split; [eapply ci_NoDup; eauto|]. split; [intro; eapply ci_column; eauto|]. split; [eapply nci_free; eauto|]. split; [|eapply co_bounds; eauto].
  apply NoDup_Permutation.
  - apply NoDup_app2; [eapply ci_NoDup; eauto|eapply nci_NoDup; eauto|]. intros j Hj Hj'. eapply ci_nci_disjoint; eauto.
  - apply seq_NoDup.
  - intro j. rewrite in_app_iff, in_seq. pose proof (nci_free _ _ _ _ _ L D C) as (_ & N). rewrite N. split.
    + intros [Hj|Hj]; [|lia]. pose proof (ci_bound _ _ _ _ _ L D C) as CB. rewrite Forall_forall in CB. apply CB in Hj. lia.
    + intro Hj. destruct (in_dec Nat.eq_dec j (cm_context_index cm)) as [I|I]; auto. right. split; [lia|].
      intro Q. apply I. eapply ci_column; eauto.
Qed.

Lemma context_none_main ds cs sp : design_space ds cs = Ok sp -> Forall wf_kind (kinds sp) -> bandit_free (kinds sp) ->
  exists cm, context_manager sp None = Ok cm /\ cm_context_index cm = [] /\
    cm_noncontext_index cm = seq 0 (model_dimensionality sp) /\ get_bounds sp = Ok (cm_noncontext_bounds cm) /\
    forall row, length row = model_dimensionality sp -> expand_vector cm [row] = Ok [row].
Proof.
  intros H W B. pose proof (lay_space _ _ _ H B) as L.
  destruct (get_bounds_spec sp (ly_facts _ L) W (ly_free _ L)) as (bs & Hb & Lb & _).
  unfold context_manager. rewrite Hb. cbn [bind]. eexists. split; [reflexivity|]. split; auto. split; auto. split; auto.
  intros row Lr. unfold expand_vector. cbn [atleast_2d mapM]. unfold expand_row. cbn [cm_noncontext_index cm_space cm_context_index cm_context_value].
  rewrite seq_length, Lr, Nat.eqb_refl. cbn [bind set_cols]. f_equal. f_equal.
  apply nth_error_ext. intro j. rewrite <- Lr.
  pose proof (set_cols_same (seq 0 (length row)) (repeat q0 (length row)) row (seq_NoDup _ _)) as Q.
  assert (F : Forall (fun d => d < length (repeat q0 (length row))) (seq 0 (length row))).
  { apply Forall_forall. intros x Hx. apply in_seq in Hx. rewrite repeat_length. lia. }
  specialize (Q F (eq_sym (seq_length _ _))). rewrite <- (cols_seq row) in Q.
  destruct (Nat.lt_ge_cases j (length row)) as [Hj|Hj].
  - apply (map_eq_in _ _ (seq 0 (length row))); [exact Q|apply in_seq; lia].
  - transitivity (@None Qc); [apply nth_error_None; rewrite set_cols_length, repeat_length; lia|symmetry; apply nth_error_None; lia].
Qed.

Lemma context_unknown_main sp c bs : get_bounds sp = Ok bs ->
  (forall n x, In (n, x) c -> (exists v, In v (sp_xvars sp) /\ x_name v = n) -> forall v, find_variable sp n = Ok v ->
     is_bandit (x_kind v) = false /\ encodable (x_kind v) x /\ xv_ok v) ->
  ~ names_known sp c -> context_manager sp (Some c) = Raise InvalidVariableNameError.
Proof.
  intros Hb V N. unfold context_manager. rewrite Hb. cbn [bind].
  assert (G : forall c' ci co cv, (forall p, In p c' -> In p c) -> ~ names_known sp c' ->
     context_loop sp c' ci co cv = Raise InvalidVariableNameError).
  { induction c' as [|[n x] c' IH]; intros ci co cv I N'.
    - exfalso. apply N'. intros n [].
    - simpl. destruct (find_variable_spec sp n) as (F1 & F2 & _).
      destruct (find_variable sp n) as [v|e] eqn:F.
      + simpl. destruct (F2 v eq_refl) as (F3 & F4).
        destruct (V n x (I _ (or_introl eq_refl)) (ex_intro _ v (conj F3 F4)) v F) as (V1 & V2 & V3). rewrite V1.
        destruct (encode_value v x V3 V2) as (b & Eb & _). rewrite Eb. simpl. apply IH.
        * intros p Hp. apply I. right; auto.
        * intro K. apply N'. intros m [<-|Hm]; [eexists; eauto|apply K; auto].
      + assert (Raise e = @Raise xvar InvalidVariableNameError).
        { apply F1. intros (v & Hv & Nv). assert (exists w, find_variable sp n = Ok w).
          { unfold find_variable. destruct (find (fun v0 => String.eqb (x_name v0) n) (rev (sp_xvars sp))) eqn:Q; [eexists; reflexivity|].
            exfalso. apply find_none with (x := v) in Q; [|apply -> in_rev; auto]. rewrite Nv, String.eqb_refl in Q. discriminate. }
          destruct H as (w & Hw). congruence. }
        injection H as ->. reflexivity. }
  rewrite (G c [] [] []); auto.
Qed.

Lemma context_objective_main ds cs sp c cm f g v : design_space ds cs = Ok sp -> Forall wf_kind (kinds sp) -> bandit_free (kinds sp) ->
  distinct_names sp -> is_dict c -> names_known sp c -> values_ok encodable sp c -> context_manager sp (Some c) = Ok cm ->
  length v = length (cm_noncontext_index cm) ->
  exists row, expand_vector cm [v] = Ok [row] /\ f_nc cm f v = f row /\
    (forall y d, g row = Ok (y, d) -> length d = model_dimensionality sp ->
       exists d', f_df_nc cm g v = Ok (y, d') /\ length d' = length v /\
         ((forall i di, nth_error d i = Some di -> partial f row i di) ->
          forall j dj, nth_error d' j = Some dj -> partial (f_nc cm f) v j dj)).
Proof.
  intros H W B D U K V E Lv. pose proof (lay_space _ _ _ H B) as L.
  destruct (context_manager_ok sp (Some c) L W D K V) as (cm' & vs & es & E' & C). simpl as_context in *.
  rewrite E in E'. injection E' as <-.
  destruct (expand_ok _ _ _ _ _ L D U C v Lv) as (row & E1 & E2 & E3 & E4). exists row.
  split; [unfold expand_vector; simpl; rewrite E1; reflexivity|].
  split; [unfold f_nc; rewrite E1; reflexivity|].
  intros y d Eg Ld. unfold f_df_nc. rewrite E1. cbn [bind]. rewrite Eg. cbn [bind fst snd].
  pose proof (nci_bound _ _ _ _ _ L D C) as NB. rewrite <- Ld in NB.
  assert (exists d', mapM (get d) (cm_noncontext_index cm) = Ok d' /\ map (nth_error d) (cm_noncontext_index cm) = map Some d') as (d' & D1 & D2).
  { clear -NB. induction NB as [|j l Hj NB (d' & I1 & I2)]; [exists []; auto|]. destruct (nth_error d j) as [x|] eqn:X.
    - exists (x :: d'). cbn [mapM map]. replace (get d j) with (Ok x) by (unfold get; rewrite X; reflexivity). cbn [bind]. rewrite I1. cbn [bind]. rewrite I2, X. auto.
    - apply nth_error_None in X. lia. }
  exists d'. rewrite D1. split; [reflexivity|].
  split. { apply (f_equal (@length _)) in D2. rewrite !map_length in D2. lia. }
  intros P j dj Hj. pose proof (f_equal (fun l => nth_error l j) D2) as Q. simpl in Q. rewrite !nth_error_map, Hj in Q.
  destruct (nth_error (cm_noncontext_index cm) j) as [i|] eqn:I; [|discriminate]. simpl in Q. injection Q as Q.
  destruct (P i dj Q) as (y0 & F0 & Lim). exists y0. split; [unfold f_nc; rewrite E1; exact F0|].
  intros eps He. destruct (Lim eps He) as (delta & Hd & Lim'). exists delta. split; auto.
  intros h h0 h1 h2. destruct (Lim' h h0 h1 h2) as (yh & Y1 & Y2). exists yh. split; auto.
  unfold f_nc. rewrite (expand_nudge _ _ _ _ _ L D U C v row j i h Lv E1 I). exact Y1.
Qed.
