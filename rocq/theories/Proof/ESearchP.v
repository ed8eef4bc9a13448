(** Entropy search and the kinds of variables. *)
From Coq Require Import String List ZArith QArith Qcanon Bool Lia.
From Verif.Model Require Import Py Space Design Optim Masked ESearch.
From Verif.Spec Require Import SpaceSpec DesignSpec ContextSpec SuggestSpec MaskSpec ReportSpec ESearchSpec.
From Verif.Proof Require Import Num Dec SpaceP RoundP ConstructP SpaceMain DesignP DesignMain ContextP ContextMain AnchorP SuggestP SuggestMain ReportP.
Import ListNotations.
Local Open Scope nat_scope.

Lemma number_width ks : Forall wf_kind ks -> number_of is_continuous ks + number_of is_discrete ks <= total_width ks.
Proof. induction 1 as [|k ks W _ L]; [auto|]. unfold number_of, total_width in *. destruct k; simpl in *; lia. Qed.
Lemma numeric_width ks : Forall numeric_kind ks -> number_of is_continuous ks + number_of is_discrete ks = total_width ks.
Proof. induction 1 as [|k ks W _ L]; [auto|]. unfold number_of, total_width in *. destruct k; simpl in *; try contradiction; lia. Qed.
Lemma other_width ks : Forall wf_kind ks -> Exists (fun k => ~ numeric_kind k /\ 0 < width k) ks ->
  number_of is_continuous ks + number_of is_discrete ks < total_width ks.
Proof.
  intros W E. induction E as [k ks (N & P)|k ks E IH]; inversion W as [|? ? Wk Ws]; subst.
  - pose proof (number_width ks Ws). unfold number_of, total_width in *. destruct k; simpl in *; try (exfalso; now apply N); lia.
  - specialize (IH Ws). unfold number_of, total_width in *. destruct k; simpl in *; lia.
Qed.

Lemma dims_of_le p sp l : dims_of p sp = Ok l -> length l <= number_of p (kinds sp).
Proof.
  unfold dims_of. intro H. apply bind_ok in H as (ls & H & Q). injection Q as <-. unfold kinds.
  assert (G : forall n pre vs ls, mapM (fun i => v <- get (pre ++ vs) i ;; Ok (if p (x_kind v) then [i] else [])) (seq (length pre) n) = Ok ls ->
            length (concat ls) <= number_of p (map x_kind vs)).
  { clear. induction n as [|n IH]; intros pre vs ls H; cbn [seq mapM] in H; [injection H as <-; simpl; lia|].
    apply bind_ok in H as (b & Hb & H). apply bind_ok in H as (bs & Hbs & H). injection H as <-. apply bind_ok in Hb as (v & Hv & Hb). injection Hb as <-.
    destruct vs as [|w vs].
    - unfold get in Hv. rewrite app_nil_r, (proj2 (nth_error_None pre (length pre))) in Hv by lia. discriminate.
    - rewrite get_app_at in Hv. injection Hv as ->. specialize (IH (pre ++ [v]) vs bs). rewrite <- app_assoc, app_length in IH. simpl in IH.
      rewrite Nat.add_1_r in IH. specialize (IH Hbs). unfold number_of in *. simpl. rewrite app_length. destruct (p (x_kind v)); simpl; lia. }
  apply (G (sp_dim sp) [] (sp_xvars sp) ls). exact H.
Qed.
Lemma input_dim_le sp d : input_dim sp = Ok d -> d <= number_of is_continuous (kinds sp) + number_of is_discrete (kinds sp).
Proof.
  unfold input_dim. intro H. apply bind_ok in H as (c & Hc & H). apply bind_ok in H as (e & He & H). injection H as <-.
  apply dims_of_le in Hc. apply dims_of_le in He. lia.
Qed.

Theorem es_supported ds cs sp : design_space ds cs = Ok sp -> Forall numeric_kind (kinds sp) ->
  input_dim sp = Ok (model_dimensionality sp) /\
  forall value x, length x = model_dimensionality sp -> es_raw (model_dimensionality sp) value x = value x.
Proof.
  intros D N. pose proof (design_space_facts _ _ _ D) as F.
  assert (B : bandit_free (kinds sp)) by (eapply Forall_impl; [|exact N]; intros k K; destruct k; simpl in *; auto; contradiction).
  split.
  - destruct (space_dim _ _ _ D B) as (E & _). destruct (dims_of_ok is_continuous sp E) as (dc & DC & LC). destruct (dims_of_ok is_discrete sp E) as (dd & DD & LD).
    unfold input_dim, get_continuous_dims, get_discrete_dims. rewrite DC, DD. cbn [bind]. f_equal. rewrite LC, LD, (numeric_width _ N). symmetry. now apply model_dim_width.
  - intros value x L. unfold es_raw. now rewrite L, Nat.eqb_refl.
Qed.
Theorem es_unsupported ds cs sp oc cm value cost f a ns g loc odm : design_space ds cs = Ok sp -> Forall wf_kind (kinds sp) -> Forall canonical_cats (kinds sp) ->
  good_context sp oc -> context_manager sp oc = Ok cm -> Exists (fun k => ~ numeric_kind k /\ 0 < width k) (kinds sp) ->
  es_acquisition sp value cost = Ok f -> aq_space a = sp -> aq_cm a = cm -> aq_f a = f -> good_gen g -> 1 <= ns ->
  (forall x, length x = model_dimensionality sp -> f x = Raise ValueError) /\
  forall p, acq_optimize a ns g loc odm <> Some (Ok p).
Proof.
  intros D W CC G E X EA Es Ec Ef GG NS. unfold es_acquisition in EA. apply bind_ok in EA as (d & Hd & EA). injection EA as <-.
  pose proof (design_space_facts _ _ _ D) as F. pose proof (input_dim_le _ _ Hd) as L1. pose proof (other_width _ W X) as L2.
  assert (Q : forall x, length x = model_dimensionality sp -> acquisition_function sp (es_raw d value) cost x = Raise ValueError).
  { intros x Lx. unfold acquisition_function, es_raw. rewrite Lx, (model_dim_width _ F). destruct (Nat.eqb_spec (total_width (kinds sp)) d); [lia|]. reflexivity. }
  split; [exact Q|]. intros (x & fx) H. pose proof (acq_good ds cs sp oc cm D W CC G E a ns g loc odm x fx Es Ec GG NS H) as GR.
  apply acq_best in H as (o & A & ys & i & _ & _ & _ & _ & _ & V & _). rewrite Ef, Q in V; [discriminate|]. eapply good_row_length; eauto.
Qed.
(** no evaluator that starts from the optimised acquisition makes a suggestion *)
Theorem es_batches a ns ns' g g' loc odm size B : (forall p, acq_optimize a ns g loc odm <> Some (Ok p)) ->
  sequential_batch a ns g loc odm <> Some (Ok B) /\ random_batch a size ns ns' g g' loc odm <> Some (Ok B).
Proof.
  intro H. split; intro Q.
  - unfold sequential_batch in Q. apply rbind_ok in Q as (p & Hp & _). exact (H p Hp).
  - unfold random_batch in Q. destruct odm; apply rbind_ok in Q as (p & Hp & Q); [|exact (H p Hp)]. apply rbind_ok in Q as (p' & Hp' & _). exact (H p' Hp').
Qed.
Theorem es_wide_bandit sp value cost : length (sp_xvars sp) < sp_dim sp -> es_acquisition sp value cost = Raise IndexError.
Proof. intro L. unfold es_acquisition, input_dim, get_continuous_dims. now rewrite (dims_of_short _ _ L). Qed.
