(** C51, C52: the constraint mask and the choice of the suggestion. *)
From Coq Require Import String List ZArith QArith Qcanon Bool Lia.
From Verif.Model Require Import Py Space Design Optim Masked.
From Verif.Spec Require Import SpaceSpec DesignSpec ContextSpec SuggestSpec MaskSpec.
From Verif.Proof Require Import Num SpaceP RoundP ConstructP SpaceMain DesignP DesignMain ContextP ContextMain AnchorP SuggestP SuggestMain ConstraintMain.
Import ListNotations.
Local Open Scope nat_scope.

(** ---- the row the constraints are evaluated at is the user-space form ---- *)
Lemma numbers_zip vs : Forall (fun v => x_mdim v = 1 /\ match x_kind v with KCat _ => False | _ => True end) vs ->
  forall p x, length x = length vs -> model_to_objective_from vs (length p) (p ++ x) = Ok x.
Proof.
  induction 1 as [|v vs (M & K) F IH]; intros p x L; destruct x as [|a x]; try discriminate; cbn [model_to_objective_from]; auto.
  assert (E : var_model_to_objective v (p ++ a :: x) (length p) = Ok [a]).
  { unfold var_model_to_objective. destruct (x_kind v); try contradiction; unfold get; rewrite nth_error_app2, Nat.sub_diag by lia; reflexivity. }
  rewrite E. cbn [bind]. rewrite M. specialize (IH (p ++ [a]) x ltac:(simpl in L; lia)).
  rewrite app_length, <- app_assoc in IH. cbn [length app] in IH. rewrite IH. reflexivity.
Qed.

Lemma widths_one vs : Forall xv_ok vs -> Forall wf_kind (map x_kind vs) -> bandit_free (map x_kind vs) -> no_single_category (map x_kind vs) ->
  length vs <= list_sum (map x_mdim vs) /\
  (list_sum (map x_mdim vs) = length vs -> Forall (fun v => x_mdim v = 1 /\ match x_kind v with KCat _ => False | _ => True end) vs).
Proof.
  induction 1 as [|v vs O F IH]; simpl; intros W B N; [split; [lia|constructor]|].
  inversion W; subst. inversion B; subst. inversion N; subst. destruct IH as (I1 & I2); auto.
  unfold xv_ok in O. assert (1 <= x_mdim v /\ (x_mdim v = 1 -> match x_kind v with KCat _ => False | _ => True end)).
  { rewrite O. destruct (x_kind v) as [|vals|isarr arms|cats]; simpl in *; try discriminate; try (split; [lia|auto]).
    split; [destruct cats; [contradiction|simpl; lia]|]. intros Q. congruence. }
  split; [lia|]. intros Q. assert (x_mdim v = 1) by lia. constructor; [tauto|]. apply I2. lia.
Qed.

Section Mask.
  Variables (ds : list descr) (cs : list constr) (sp : space).
  Hypothesis D : design_space ds (Some cs) = Ok sp.
  Hypothesis W : Forall wf_kind (kinds sp).
  Hypothesis N1 : no_single_category (kinds sp).

  Lemma mask_row x t : length x = model_dimensionality sp -> user_form sp x t -> constrained_row sp x = Ok [t].
  Proof.
    intros L U. unfold constrained_row. destruct (Nat.eqb_spec (model_dimensionality sp) (objective_dimensionality sp)) as [Q|Q]; [|exact U].
    unfold user_form, zip_inputs in U. destruct (has_bandit sp) eqn:HB; [exact U|].
    pose proof (design_space_facts _ _ _ D) as F. pose proof (sf_nb _ F HB) as B.
    destruct (widths_one (sp_xvars sp) (sf_ok _ F) W B N1) as (_ & A).
    specialize (A Q). pose proof (numbers_zip (sp_xvars sp) A [] x) as Z. simpl in Z. unfold objective_dimensionality in Q.
    simpl in U. unfold model_to_objective in U. rewrite Z in U by lia. exact U.
  Qed.

  (** the value of the masked acquisition *)
  Lemma masked_value raw cost x v t : length x = model_dimensionality sp -> user_form sp x t ->
    acquisition_function sp raw cost x = Ok v ->
    exists r c, raw x = Ok r /\ cost x = Ok c /\
      ((feasible cs t /\ v = (- r / c)%Qc) \/ ((exists k, In k cs /\ violates k t) /\ v = 0%Qc)).
  Proof.
    intros L U H. unfold acquisition_function in H. apply bind_ok in H as (r & R & H). apply bind_ok in H as (c & C & H).
    apply bind_ok in H as (i & I & H). injection H as <-. exists r, c. split; auto. split; auto.
    unfold indicator_at in I. rewrite (mask_row x t L U) in I. cbn [bind] in I. apply bind_ok in I as (is' & I & G).
    destruct (indicator_main ds cs sp [t] D ltac:(discriminate)) as (_ & M). specialize (M is' I).
    inversion M as [|? i0 ? l Hi M']; subst. inversion M'; subst. unfold get in G. simpl in G. injection G as <-.
    destruct Hi as [(-> & F)|(-> & K)]; [left|right]; split; auto; unfold Qcdiv; ring.
  Qed.
End Mask.

Lemma neg_div_neg r c : (0 < r)%Qc -> (0 < c)%Qc -> (- r / c < 0)%Qc.
Proof.
  intros R C. assert (I : (0 < / c)%Qc).
  { destruct (Qclt_le_dec 0 (/ c)) as [L|L]; auto. exfalso.
    assert (Q : (/ c * c <= 0 * c)%Qc) by (apply Qcmult_le_compat_r; auto; now apply Qclt_le_weak).
    rewrite Qcmult_comm, Qcmult_inv_r in Q by (intros ->; revert C; apply Qcle_not_lt, Qcle_refl). rewrite Qcmult_0_l in Q. revert Q. apply Qclt_not_le. reflexivity. }
  replace (- r / c)%Qc with (- (r * / c))%Qc by (unfold Qcdiv; ring).
  assert (P : (0 * / c < r * / c)%Qc) by (apply Qcmult_lt_compat_r; auto). rewrite Qcmult_0_l in P. qclra.
Qed.
Lemma pos_div_pos r c : (r < 0)%Qc -> (0 < c)%Qc -> (0 < - r / c)%Qc.
Proof.
  intros R C. assert (Q : (0 < - r)%Qc) by qclra. pose proof (neg_div_neg (- r) c Q C) as P.
  replace (- - r / c)%Qc with (- (- r / c))%Qc in P by (unfold Qcdiv; ring). qclra.
Qed.

Lemma candidate_unique a o ext odm x0 y y' : candidate a o ext odm x0 y -> candidate a o ext odm x0 y' -> y = y'.
Proof.
  intros (n & v & row & r & A1 & A2 & A3 & A4 & A5) (n' & v' & row' & r' & B1 & B2 & B3 & B4 & B5).
  rewrite A1 in B1. injection B1 as <-. rewrite A2 in B2. injection B2 as <-. rewrite A3 in B3. injection B3 as <-. rewrite A4 in B4. injection B4 as <-.
  destruct A5 as [(A & ->)|(A & ->)], B5 as [(B & ->)|(B & ->)]; tauto.
Qed.

Section Choice.
  Variables (ds : list descr) (cs : list constr) (sp : space) (oc : option context) (cm : ctxmgr).
  Hypothesis D : design_space ds (Some cs) = Ok sp.
  Hypothesis W : Forall wf_kind (kinds sp).
  Hypothesis CC : Forall canonical_cats (kinds sp).
  Hypothesis N1 : no_single_category (kinds sp).
  Hypothesis G : good_context sp oc.
  Hypothesis E : context_manager sp oc = Ok cm.
  Variables (a : acq) (ns : nat) (g : gen) (loc : nat -> local_opt) (odm : option dupmgr) (raw cost : acqf).
  Hypothesis Es : aq_space a = sp.
  Hypothesis Ec : aq_cm a = cm.
  Hypothesis Ef : aq_f a = acquisition_function sp raw cost.
  Hypothesis GG : good_gen g.
  Hypothesis NS : 1 <= ns.
  Hypothesis PC : positive cost.

  (** the value of every optimised point is at least that of the suggestion *)
  Lemma optimised_value x fx y : acq_optimize a ns g loc odm = Some (Ok (x, fx)) -> optimised a ns g loc odm y ->
    exists fy, aq_f a y = Ok fy /\ (fx <= fy)%Qc.
  Proof.
    intros H (o & A & k & x0 & Ho & HA & Hk & C). apply acq_best in H as (o' & A' & ys & i & Ho' & HA' & L & CA & _ & _ & B).
    rewrite Ho in Ho'. injection Ho' as <-. rewrite HA in HA'. injection HA' as <-.
    assert (K : k < length ys) by (rewrite L; apply nth_error_Some; congruence). apply nth_error_Some in K.
    destruct (nth_error ys k) as [y'|] eqn:Ey; [|congruence]. pose proof (candidate_unique _ _ _ _ _ _ _ C (CA k x0 y' Hk Ey)) as <-.
    destruct (B k y Ey) as (fy & F & Lf & _). eauto.
  Qed.
  Lemma suggestion_optimised x fx : acq_optimize a ns g loc odm = Some (Ok (x, fx)) -> optimised a ns g loc odm x /\ aq_f a x = Ok fx.
  Proof.
    intros H. apply acq_best in H as (o & A & ys & i & Ho & HA & L & CA & Hi & F & _). split; auto.
    assert (K : i < length A) by (rewrite <- L; apply nth_error_Some; congruence). apply nth_error_Some in K.
    destruct (nth_error A i) as [x0|] eqn:E0; [|congruence]. exists o, A, i, x0. auto.
  Qed.
  Lemma anchor_good A x0 k : acq_anchors a ns g odm = Some (Ok A) -> nth_error A k = Some x0 -> good_row sp oc x0 /\ unknown odm x0.
  Proof.
    intros HA Hk. apply acq_anchors_in in HA as (design & X & HD & HX & HI). rewrite Es, Ec in HX.
    destruct (candidates_good ds (Some cs) sp oc cm D W CC G E design ns g false X HD GG NS HX) as (F & _). rewrite Forall_forall in F.
    apply nth_error_In in Hk. split; [apply F|]; apply HI; auto.
  Qed.
  Lemma optimised_good y : optimised a ns g loc odm y -> good_row sp oc y.
  Proof.
    intros (o & A & k & x0 & Ho & HA & Hk & n & v & row & r & A1 & A2 & A3 & A4 & [(_ & ->)|(_ & ->)]).
    - rewrite Ec in A3. rewrite Es in A4. destruct (expand_good ds (Some cs) sp oc cm D W G E v row A3) as (L & K).
      eapply round_good; eauto.
    - eapply anchor_good; eauto.
  Qed.
  Lemma optimised_form y : optimised a ns g loc odm y -> length y = model_dimensionality sp /\ exists t, user_form sp y t.
  Proof.
    intros H. pose proof (optimised_good y H) as GR. split; [eapply good_row_length; eauto|]. destruct GR as (P & _). eapply point_zippable; eauto.
  Qed.

  Lemma mask_choice x fx y : positive raw -> acq_optimize a ns g loc odm = Some (Ok (x, fx)) ->
    optimised a ns g loc odm y -> row_feasible sp cs y -> row_feasible sp cs x.
  Proof.
    intros PR H Hy (t & U & F). destruct (suggestion_optimised x fx H) as (Hx & Fx).
    destruct (optimised_value x fx y H Hy) as (fy & Fy & LE). destruct (optimised_form y Hy) as (Ly & _).
    destruct (optimised_form x Hx) as (Lx & tx & Ux). rewrite Ef in Fx, Fy.
    destruct (masked_value ds cs sp D W N1 raw cost y fy t Ly U Fy) as (r & c & R & C & [(_ & V)|((k & K1 & K2) & V)]).
    2:{ exfalso. exact (violates_infeasible cs k t K1 K2 F). }
    destruct (masked_value ds cs sp D W N1 raw cost x fx tx Lx Ux Fx) as (rx & cx & Rx & Cx & [(FX & _)|(_ & VX)]); [exists tx; auto|].
    exfalso. subst fx fy. pose proof (neg_div_neg r c (PR _ _ R) (PC _ _ C)) as NEG. revert LE. apply Qclt_not_le. exact NEG.
  Qed.

  Lemma negative_choice x fx y : (forall z v, optimised a ns g loc odm z -> row_feasible sp cs z -> raw z = Ok v -> (v < 0)%Qc) ->
    acq_optimize a ns g loc odm = Some (Ok (x, fx)) -> optimised a ns g loc odm y -> row_infeasible sp cs y -> row_infeasible sp cs x.
  Proof.
    intros NR H Hy (t & k0 & U & F0 & F). destruct (suggestion_optimised x fx H) as (Hx & Fx).
    destruct (optimised_value x fx y H Hy) as (fy & Fy & LE). destruct (optimised_form y Hy) as (Ly & _).
    destruct (optimised_form x Hx) as (Lx & tx & Ux). rewrite Ef in Fx, Fy.
    destruct (masked_value ds cs sp D W N1 raw cost y fy t Ly U Fy) as (r & c & R & C & [(F' & _)|(_ & V)]).
    { exfalso. exact (violates_infeasible cs k0 t F0 F F'). }
    destruct (masked_value ds cs sp D W N1 raw cost x fx tx Lx Ux Fx) as (rx & cx & Rx & Cx & [(FX & VX)|((k & K1 & K2) & _)]); [|exists tx, k; auto].
    exfalso. subst fx fy. pose proof (pos_div_pos rx cx (NR x rx Hx (ex_intro _ tx (conj Ux FX)) Rx) (PC _ _ Cx)) as P. revert LE. apply Qclt_not_le. exact P.
  Qed.
End Choice.

(** ---- continuous spaces ---- *)
Lemma continuous_bounds vs : Forall (fun k => is_continuous k = true) (map x_kind vs) ->
  exists bss, mapM var_bounds vs = Ok bss /\ forall x, Forall2 (fun v b => (fst b <= v)%Qc /\ (v <= snd b)%Qc) x (concat bss) <-> design_point (map x_kind vs) x.
Proof.
  induction vs as [|v vs IH]; simpl; intros F; inversion F as [|? ? K F']; subst.
  - exists []. split; auto. intros x. split; intros H; inversion H; constructor.
  - destruct (IH F') as (bss & E & I). unfold var_bounds at 1. destruct (x_kind v) as [lo hi| | |] eqn:KV; try discriminate.
    cbn [bind]. rewrite E. cbn [bind]. eexists. split; [reflexivity|]. intros x. cbn [concat app]. split; intros H.
    + inversion H as [|y b x' bs (H1 & H2) H']; subst. change (y :: x') with ([y] ++ x'). constructor; [|apply I; exact H'].
      exists y. auto.
    + inversion H as [|k ks b r Hb Hr]; subst. destruct Hb as (y & -> & H1 & H2). cbn [app]. constructor; [auto|]. apply I. exact Hr.
Qed.

Section Continuous.
  Variables (ds : list descr) (cs : list constr) (sp : space) (cm : ctxmgr).
  Hypothesis D : design_space ds (Some cs) = Ok sp.
  Hypothesis W : Forall wf_kind (kinds sp).
  Hypothesis AC : all_continuous (kinds sp).
  Hypothesis E : context_manager sp None = Ok cm.
  Variables (a : acq) (ns : nat) (g : gen) (loc : nat -> local_opt) (odm : option dupmgr) (raw cost : acqf).
  Hypothesis Es : aq_space a = sp.
  Hypothesis Ec : aq_cm a = cm.
  Hypothesis El : aq_logic a = "max_objective"%string.
  Hypothesis Ef : aq_f a = acquisition_function sp raw cost.
  Hypothesis GG : good_gen g.
  Hypothesis NS : 1 <= ns.
  Hypothesis PC : positive cost.
  Hypothesis PR : positive raw.
  Hypothesis DE : forall k, descends (loc k).

  Lemma ac_bandit : bandit_free (kinds sp).
  Proof. destruct AC as (_ & F). eapply Forall_impl; [|exact F]. intros k K. destruct k; simpl in *; congruence. Qed.
  Lemma ac_cats : Forall canonical_cats (kinds sp).
  Proof. destruct AC as (_ & F). eapply Forall_impl; [|exact F]. intros k K. destruct k; simpl in *; try discriminate. exact I. Qed.
  Lemma ac_single : no_single_category (kinds sp).
  Proof. destruct AC as (_ & F). eapply Forall_impl; [|exact F]. intros k K. destruct k; simpl in *; try discriminate. exact I. Qed.
  Lemma ac_context : good_context sp None.
  Proof. split; left; [exact ac_bandit|]. split; [exact ac_bandit|exact (proj1 AC)]. Qed.
  Lemma ac_inside x bs : get_bounds sp = Ok bs -> (inside x bs <-> design_point (kinds sp) x).
  Proof.
    intros B. destruct (continuous_bounds (sp_xvars sp) (proj2 AC)) as (bss & E1 & I). unfold get_bounds in B. rewrite E1 in B. injection B as <-. apply I.
  Qed.
  Lemma round_point x : design_point (kinds sp) x -> round_optimum sp [x] = Ok [x].
  Proof.
    intros P. pose proof (design_space_facts _ _ _ D) as F.
    assert (L : length x = model_dimensionality sp) by (rewrite (model_dim_width _ F); apply design_point_length; auto).
    destruct (round_optimum_spec sp x F W ac_bandit (proj1 AC) L) as (r & R & PR' & M).
    assert (Q : x = r).
    { apply dist2_zero; [rewrite L, (model_dim_width _ F); symmetry; apply design_point_length; auto|].
      specialize (M x P). rewrite dist2_refl in M. exact M. }
    rewrite <- Q in R. exact R.
  Qed.

  Lemma continuous_suggestion x fx : acq_optimize a ns g loc odm = Some (Ok (x, fx)) -> row_feasible sp cs x.
  Proof.
    intros H. pose proof H as H0. apply acq_best in H as (o & A & ys & i & Ho & HA & L & CA & Hi & Fx & _).
    assert (K : i < length A) by (rewrite <- L; apply nth_error_Some; congruence). apply nth_error_Some in K.
    destruct (nth_error A i) as [x0|] eqn:E0; [|congruence].
    pose proof (CA i x0 x E0 Hi) as (x0n & v & row & r & C1 & C2 & C3 & C4 & C5).
    destruct (anchor_good ds cs sp None cm D W ac_cats ac_context E a ns g odm Es Ec GG NS A x0 i HA E0) as ((P0 & _) & _).
    assert (F0 : row_feasible sp cs x0).
    { unfold acq_anchors in HA. rewrite El, Es, Ec in HA. cbn [String.eqb Ascii.eqb Bool.eqb] in HA.
      apply anchor_get_in in HA as (X & HX & HI). pose proof (candidates_feasible ds cs sp None cm D W ac_cats ac_context E ns g false X GG NS HX) as F.
      rewrite Forall_forall in F. destruct (F x0 (proj1 (HI x0 (nth_error_In _ _ E0)))) as (t & U & FT). exists t. auto. }
    destruct C5 as [(_ & Q)|(_ & Q)]; [|subst x; exact F0]. subst x.
    pose proof (design_space_facts _ _ _ D) as F.
    assert (L0 : length x0 = model_dimensionality sp) by (rewrite (model_dim_width _ F); apply design_point_length; auto).
    destruct (good_cm_none sp None cm E eq_refl) as (bs & HB & CM).
    assert (X0 : x0n = x0).
    { rewrite Ec, CM in C1. unfold x0_nocontext in C1. cbn [cm_noncontext_index] in C1. rewrite <- L0 in C1. clear -C1.
      assert (Q : mapM (get x0) (seq 0 (length x0)) = Ok x0).
      { assert (G : forall p s : vec, mapM (get (p ++ s)) (seq (length p) (length s)) = Ok s).
        { intros p s. revert p. induction s as [|b s IH]; intros p; cbn [length seq mapM]; auto.
          unfold get at 1. rewrite nth_error_app2, Nat.sub_diag by lia. cbn [nth_error bind]. specialize (IH (p ++ [b])).
          rewrite app_length, <- app_assoc in IH. cbn [length app] in IH. rewrite Nat.add_1_r in IH. rewrite IH. reflexivity. }
        exact (G [] x0). }
      congruence. }
    subst x0n.
    assert (BS : cm_noncontext_bounds (aq_cm a) = bs) by (rewrite Ec, CM; reflexivity). rewrite BS in C2.
    assert (IN : inside x0 bs) by (apply ac_inside; auto).
    assert (LOC : loc i bs x0 (f_nc (aq_cm a) (aq_f a)) match aq_g a with Some h => Some (f_df_nc (aq_cm a) h) | None => None end = Ok v).
    { unfold run_optimizer in C2. destruct o; auto. destruct (Nat.eqb (length bs) 1); [discriminate|exact C2]. }
    destruct (DE i bs x0 _ _ v IN LOC) as (IV & DV). pose proof (proj1 (ac_inside v bs HB) IV) as PV.
    assert (Lv : length v = model_dimensionality sp) by (rewrite (model_dim_width _ F); apply design_point_length; auto).
    assert (RV : row = v).
    { rewrite Ec in C3. rewrite (good_no_context_full sp None cm E v eq_refl Lv) in C3. congruence. }
    subst row. rewrite Es, (round_point v PV) in C4. injection C4 as <-.
    destruct F0 as (t0 & U0 & F0).
    (* the value at the anchor is negative: it was computed when the anchors were chosen *)
    assert (V0 : exists f0, aq_f a x0 = Ok f0).
    { unfold acq_anchors in HA. rewrite El, Es, Ec in HA. cbn [String.eqb Ascii.eqb Bool.eqb] in HA.
      apply anchor_get_inv in HA as (X & V & sc & HX & SEL & NE & SC & MG).
      pose proof (mapM_get_in _ _ _ MG x0 (nth_error_In _ _ E0)) as IV0. unfold objective_scores in SC. clear -SC IV0.
      revert sc SC IV0. induction V as [|y V IH]; [intros sc SC []|]; intros sc SC [->|IN]; cbn [mapM] in SC; apply bind_ok in SC as (b & B & SC); [eauto|].
      apply bind_ok in SC as (bs & BS & _). eauto. }
    destruct V0 as (f0 & V0).
    assert (N0 : (f0 < 0)%Qc).
    { rewrite Ef in V0. destruct (masked_value ds cs sp D W ac_single raw cost x0 f0 t0 L0 U0 V0) as (r0 & c0 & R0 & C0 & [(_ & V)|((k & K1 & K2) & _)]).
      - subst f0. apply neg_div_neg; [exact (PR _ _ R0)|exact (PC _ _ C0)].
      - exfalso. exact (violates_infeasible cs k t0 K1 K2 F0). }
    destruct (DV f0) as (fv & FV & LV).
    { unfold f_nc. rewrite Ec, (good_no_context_full sp None cm E x0 eq_refl L0). exact V0. }
    assert (EV : fv = fx).
    { unfold f_nc in FV. rewrite Ec, (good_no_context_full sp None cm E v eq_refl Lv) in FV. cbn [bind] in FV. congruence. }
    destruct (point_zippable ds (Some cs) sp D v PV) as (tv & UV). rewrite Ef in Fx.
    destruct (masked_value ds cs sp D W ac_single raw cost v fx tv Lv UV Fx) as (rv & cv & _ & _ & [(FF & _)|(_ & VZ)]); [exists tv; auto|].
    exfalso. subst fv fx. apply (Qclt_not_le _ _ N0). exact LV.
  Qed.
End Continuous.
