(** C85: the local optimizers.  C86: entropy search and the kinds of variables.  Specification: Spec/SolverSpec.v,
    Spec/ESearchSpec.v.  Model: Model/Solver.v, Model/ESearch.v. *)
From Coq Require Import String List ZArith QArith Qcanon Bool Lia.
From Verif.Model Require Import Py Space Design Optim Masked Solver ESearch.
From Verif.Spec Require Import SpaceSpec DesignSpec ContextSpec SuggestSpec MaskSpec SolverSpec ESearchSpec Examples.
From Verif.Proof Require Import Num Dec SolverP ESearchP SuggestEx.
Import ListNotations.
Local Open Scope nat_scope.
Local Open Scope string_scope.
Local Open Scope list_scope.

(** ---------------------------------------------------------------- C85 *)
(** The value an optimizer returns is the function's value at the point it returns. *)
Theorem C85_reported_value : forall ext name bounds x0 f df f_df x v, honest (so_lbfgs ext) ->
  optimize_with ext name bounds x0 f df f_df = Ok (x, v) -> f x = Ok v.
Proof. exact reported_value. Qed.
Print Assumptions C85_reported_value.
(** The point lies in the box if the start does. *)
Theorem C85_inside : forall ext name bounds x0 f df f_df x v, boxed_solvers ext -> inside x0 bounds ->
  optimize_with ext name bounds x0 f df f_df = Ok (x, v) -> inside x bounds.
Proof. exact stays_inside. Qed.
Print Assumptions C85_inside.
(** 'lbfgs' never returns more than the value at the start. *)
Theorem C85_no_worse : forall ext bounds x0 f df f_df x v a, honest (so_lbfgs ext) -> improving (so_lbfgs ext) ->
  (forall h y, f_df = Some h -> (exists w, f y = Ok w) -> exists p, h y = Ok p) ->
  optimize_with ext "lbfgs" bounds x0 f df f_df = Ok (x, v) -> f x0 = Ok a -> (v <= a)%Qc.
Proof. exact lbfgs_no_worse. Qed.
Print Assumptions C85_no_worse.
(** An abnormal line search: whatever the solver reports, the answer is the start and its value. *)
Theorem C85_abnormal : forall ext bounds x0 f df f_df,
  (forall F, exists a, so_lbfgs ext F x0 bounds 1000 = Ok a /\ la_abnormal a = true) -> (df = None \/ f_df <> None) ->
  optimize_with ext "lbfgs" bounds x0 f df f_df = (v <- f x0 ;; Ok (x0, v)).
Proof. exact abnormal_is_start. Qed.
Print Assumptions C85_abnormal.
(** Of f_df only the gradient is used; two versions with the same gradient give the same answer. *)
Theorem C85_gradient_only : forall ext name bounds x0 f df df' g g',
  (forall x, exists p p', g x = Ok p /\ g' x = Ok p' /\ snd p = snd p') ->
  (forall F F' y b n, (forall x, match F, F' with Exact h, Exact h' => h x = h' x | Approx h, Approx h' => h x = h' x | _, _ => False end) ->
     so_lbfgs ext F y b n = so_lbfgs ext F' y b n) ->
  optimize_with ext name bounds x0 f df (Some g) = optimize_with ext name bounds x0 f df' (Some g').
Proof. exact gradient_only. Qed.
Print Assumptions C85_gradient_only.
(** A gradient df without f_df cannot be used: NameError from 'lbfgs', alone or through apply_optimizer without context;
    with a context manager df is ignored. *)
Theorem C85_df_alone_refuted : forall ext bounds x0 f df,
  optimize_with ext "lbfgs" bounds x0 f (Some df) None = Raise NameError /\
  (forall odm sp, is_dup odm x0 = Ok false -> apply_with ext "lbfgs" bounds x0 f (Some df) None odm None sp = Raise NameError) /\
  (forall name odm cm sp, apply_with ext name bounds x0 f (Some df) None odm (Some cm) sp = apply_with ext name bounds x0 f None None odm (Some cm) sp).
Proof.
  exact (fun ext bounds x0 f df => conj (df_alone ext bounds x0 f df) (conj (fun odm sp => df_alone_apply ext bounds x0 f df odm sp)
          (fun name odm cm sp => df_dropped ext name bounds x0 f (Some df) odm cm sp))).
Qed.
Print Assumptions C85_df_alone_refuted.
(** Unknown names, one-dimensional problems for CMA, missing libraries. *)
Theorem C85_refusals : forall ext name bounds x0 f df f_df,
  (name <> "lbfgs" -> name <> "DIRECT" -> name <> "CMA" -> optimize_with ext name bounds x0 f df f_df = Raise InvalidVariableNameError) /\
  (length bounds = 1 -> optimize_with ext "CMA" bounds x0 f df f_df = Raise IndexError) /\
  (so_direct ext = None -> optimize_with ext "DIRECT" bounds x0 f df f_df = Raise ImportError) /\
  (so_cma ext = None -> length bounds <> 1 -> optimize_with ext "CMA" bounds x0 f df f_df = Raise ImportError).
Proof. exact refusals. Qed.
Print Assumptions C85_refusals.
(** Every installation is one of the external optimizers the theorems about suggestions (C24 - C29, C51, C52, C79 - C81)
    quantify over. *)
Theorem C85_covered : forall ext name o bounds x0 f g odm ocm sp, choose_optimizer name = Ok o ->
  apply_with ext name bounds x0 f None g odm ocm sp = apply_optimizer (run_optimizer o bounds (as_local ext o)) x0 f g odm ocm sp.
Proof. exact apply_refines. Qed.
Print Assumptions C85_covered.

(** An L-BFGS-B that tries the middle of the box and returns it when it is not worse. *)
Definition middle (bs : list (Qc * Qc)) : vec := map (fun b => ((fst b + snd b) / (1 + 1))%Qc) bs.
Definition one_step : lbfgs := fun F x0 bs _ =>
  v0 <- value_at F x0 ;; v <- value_at F (middle bs) ;;
  Ok (if qcle v v0 then mk_la (middle bs) v false else mk_la x0 v0 false).
Definition stuck : lbfgs := fun _ _ _ _ => Ok (mk_la [] 0%Qc true).
Lemma middle_inside x bs : inside x bs -> inside (middle bs) bs.
Proof.
  induction 1 as [|y b x bs (L & U) _ IH]; simpl; constructor; auto. pose proof (Qcle_trans _ _ _ L U) as LU. split.
  - apply Qcmult_lt_0_le_reg_r with (1 + 1)%Qc; [reflexivity|]. replace ((fst b + snd b) / (1 + 1) * (1 + 1))%Qc with (fst b + snd b)%Qc by (field; discriminate).
    replace (fst b * (1 + 1))%Qc with (fst b + fst b)%Qc by ring. apply Qcplus_le_compat; auto. apply Qcle_refl.
  - apply Qcmult_lt_0_le_reg_r with (1 + 1)%Qc; [reflexivity|]. replace ((fst b + snd b) / (1 + 1) * (1 + 1))%Qc with (fst b + snd b)%Qc by (field; discriminate).
    replace (snd b * (1 + 1))%Qc with (snd b + snd b)%Qc by ring. apply Qcplus_le_compat; auto. apply Qcle_refl.
Qed.
Example C85_nonvacuous : honest one_step /\ boxed one_step /\ improving one_step /\
  (forall ext, so_lbfgs ext = one_step -> optimize_with ext "lbfgs" [(z 0, z 4)] [z 1] (fun x => Ok (z 0 - qsum x)%Qc) None None = Ok ([z 2], z (-2))) /\
  (forall ext, so_lbfgs ext = stuck -> optimize_with ext "lbfgs" [(z 0, z 4)] [z 1] (fun x => Ok (z 0 - qsum x)%Qc) None None = Ok ([z 1], z (-1))).
Proof.
  assert (I : forall F x0 bs n a, one_step F x0 bs n = Ok a -> exists v0 v, value_at F x0 = Ok v0 /\ value_at F (middle bs) = Ok v /\
            a = if qcle v v0 then mk_la (middle bs) v false else mk_la x0 v0 false).
  { intros F x0 bs n a H. unfold one_step in H. apply bind_ok in H as (v0 & H0 & H). apply bind_ok in H as (v & H1 & H). injection H as <-. eauto. }
  split; [|split; [|split; [|split]]].
  - intros F x0 bs n a H _. apply I in H as (v0 & v & H0 & H1 & ->). destruct (qcle v v0); auto.
  - intros F x0 bs n a H _ Hi. apply I in H as (v0 & v & H0 & H1 & ->). destruct (qcle v v0); auto. eapply middle_inside; eauto.
  - intros F x0 bs n a w H _ Hw. apply I in H as (v0 & v & H0 & H1 & ->). rewrite H0 in Hw. injection Hw as <-. destruct (qcle v v0) eqn:Q; simpl; [now apply qcle_spec|apply Qcle_refl].
  - intros ext E. unfold optimize_with, lbfgs_optimize. rewrite E. vmeq.
  - intros ext E. unfold optimize_with, lbfgs_optimize. rewrite E. vmeq.
Qed.
(** an external optimizer that looks at its target only, and two targets with the same second component *)
Example C85_nonvacuous_gradient :
  (forall F F' y b n, (forall x, match F, F' with Exact h, Exact h' => h x = h' x | Approx h, Approx h' => h x = h' x | _, _ => False end) -> one_step F y b n = one_step F' y b n) /\
  exists g g' : list Qc -> res (Qc * list Qc), (forall x, exists p p', g x = Ok p /\ g' x = Ok p' /\ snd p = snd p' /\ fst p <> fst p').
Proof.
  split.
  - intros F F' y b n H. unfold one_step, value_at. destruct F, F'; try (destruct (H []); fail); rewrite ?H; reflexivity.
  - exists (fun x => Ok (z 5, x)), (fun x => Ok (z 6, x)). intros x. exists (z 5, x), (z 6, x). repeat split. discriminate.
Qed.

(** ---------------------------------------------------------------- C86 *)
(** Continuous and discrete variables: every model row passes the dimension check. *)
Theorem C86_supported : forall ds cs sp, design_space ds cs = Ok sp -> Forall numeric_kind (kinds sp) ->
  input_dim sp = Ok (model_dimensionality sp) /\
  forall value x, length x = model_dimensionality sp -> es_raw (model_dimensionality sp) value x = value x.
Proof. exact es_supported. Qed.
Print Assumptions C86_supported.
(** A categorical or bandit variable: the acquisition raises ValueError at every model row and no suggestion is ever made. *)
Theorem C86_unsupported_refuted : forall ds cs sp oc cm value cost f a ns g loc odm,
  design_space ds cs = Ok sp -> Forall wf_kind (kinds sp) -> Forall canonical_cats (kinds sp) ->
  good_context sp oc -> context_manager sp oc = Ok cm -> Exists (fun k => ~ numeric_kind k /\ 0 < width k) (kinds sp) ->
  es_acquisition sp value cost = Ok f -> aq_space a = sp -> aq_cm a = cm -> aq_f a = f -> good_gen g -> 1 <= ns ->
  (forall x, length x = model_dimensionality sp -> f x = Raise ValueError) /\
  forall p, acq_optimize a ns g loc odm <> Some (Ok p).
Proof. exact es_unsupported. Qed.
Print Assumptions C86_unsupported_refuted.
Theorem C86_evaluators : forall a ns ns' g g' loc odm size B, (forall p, acq_optimize a ns g loc odm <> Some (Ok p)) ->
  sequential_batch a ns g loc odm <> Some (Ok B) /\ random_batch a size ns ns' g g' loc odm <> Some (Ok B).
Proof. exact es_batches. Qed.
Print Assumptions C86_evaluators.
(** A bandit with arms of two or more numbers: not even the acquisition can be built. *)
Theorem C86_bandit_refuted : forall sp value cost, length (sp_xvars sp) < sp_dim sp -> es_acquisition sp value cost = Raise IndexError.
Proof. exact es_wide_bandit. Qed.
Print Assumptions C86_bandit_refuted.
Example C86_nonvacuous_supported : let sp := the_space ds3 None in Forall numeric_kind (kinds sp) /\ input_dim sp = Ok (length (kinds sp)).
Proof. cbv zeta. split; [vm_compute; repeat constructor|vmeq]. Qed.
Example C86_nonvacuous_unsupported : let sp := the_space ds_mixed None in
  Exists (fun k => ~ numeric_kind k /\ 0 < width k) (kinds sp) /\ input_dim sp = Ok 3 /\ model_dimensionality sp = 6 /\
  acq_optimize (acq_of sp None (fun x => v <- es_acquisition sp (fun _ => Ok (z 1)) (fun _ => Ok (z 1)) ;; v x)) 2 spread stay None = Some (Raise ValueError).
Proof. cbv zeta. split; [|split; [vmeq|split; [vmeq|vmeq]]]. vm_compute. right. right. left. split; [auto|lia]. Qed.
Example C86_nonvacuous_bandit : let sp := the_space ds_bandit None in length (sp_xvars sp) < sp_dim sp.
Proof. vm_compute. lia. Qed.
