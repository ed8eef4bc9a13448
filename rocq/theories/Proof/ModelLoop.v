(** Runs with a surrogate that has no get_model_parameters. *)
From Coq Require Import String List ZArith QArith Qcanon Bool Lia.
From Verif.Model Require Import Py Space Design Optim Objective BO.
From Verif.Spec Require Import BOSpec.
From Verif.Proof Require Import Num BOP BOLoop BOMain BOMain2.
Import ListNotations.
Local Open Scope nat_scope.

Section NoParams.
Context {M : Type}.
Variable E : env M.
Hypothesis NP : forall m, e_params E m = None.

Lemma np_update s s1 r : update_model E s = (s1, r) ->
  (exists m p U, s1 = with_model s m p U) /\ (exists e, r = Raise e) /\
  (r = Raise LinAlgError -> exists m Xm Ym, snd (e_update E m Xm Ym) = Some LinAlgError).
Proof.
  intros UM. pose proof (update_model_spec _ _ _ _ UM) as (m & p & U & -> & HU & HO). split; [eauto|]. destruct r as [[]|e].
  - destruct HO as (_ & (v & PV & _) & _). rewrite NP in PV. discriminate.
  - split; [eauto|]. intros [= ->]. destruct HO as (_ & _ & _ & Xm & Ym & _ & K). eauto.
Qed.
Lemma np_iter o mi mt eps z s s' r : iter E o mi mt eps z s = (s', r) ->
  s_X s' = s_X s /\ s_Y s' = s_Y s /\ s_hist s' = s_hist s /\
  (time_left mt (s_cum s) = false /\ r = Some (Some (Ok tt)) \/
   time_left mt (s_cum s) = true /\
   (r = Some (Some (Ok tt)) /\ (exists m Xm Ym, snd (e_update E m Xm Ym) = Some LinAlgError) \/ exists e, r = Some (Some (Raise e)) /\ e <> LinAlgError)).
Proof.
  unfold iter. destruct (time_left mt (s_cum s)); [|intros [= <- <-]; auto 10].
  destruct (update_model E s) as [s1 r1] eqn:UM. apply np_update in UM. destruct UM as ((m & p & U & ->) & (e & ->) & L).
  destruct e; intros [= <- <-]; sproj; (split; [reflexivity|]); (split; [reflexivity|]); (split; [reflexivity|]); right; (split; [reflexivity|]);
    try (right; eexists; split; [reflexivity|discriminate]). left. auto.
Qed.
Lemma np_loop fuel o mi mt eps z s s' r : loop fuel E o mi mt eps z s = (s', r) -> r <> None ->
  s_X s' = s_X s /\ s_Y s' = s_Y s /\ s_hist s' = s_hist s /\
  (time_left mt (s_cum s) = false /\ r = Some (Ok tt) \/
   time_left mt (s_cum s) = true /\
   (r = Some (Ok tt) /\ (exists m Xm Ym, snd (e_update E m Xm Ym) = Some LinAlgError) \/ exists e, r = Some (Raise e) /\ e <> LinAlgError)).
Proof.
  destruct fuel as [|fuel]; [cbn; intros [= <- <-] X; now contradiction X|]. rewrite loop_iter. intros H NN.
  destruct (iter E o mi mt eps z s) as [s1 r1] eqn:IT. pose proof (np_iter _ _ _ _ _ _ _ _ IT) as (A & B & C & D). destruct r1 as [r1|].
  - injection H as <- <-. split; [exact A|]. split; [exact B|]. split; [exact C|].
    destruct D as [[D1 [= ->]]|(D1 & [([= ->] & D2)|(e & [= ->] & D2)])].
    + left. split; [exact D1|reflexivity].
    + right. split; [exact D1|]. left. split; [reflexivity|exact D2].
    + right. split; [exact D1|]. right. exists e. split; [reflexivity|exact D2].
  - exfalso. destruct D as [[_ D]|(_ & [(D & _)|(e & D & _)])]; discriminate.
Qed.
(** The outcome of a run that returns, from data with values. *)
Theorem np_run fuel s Y mi mt eps ctx s' r o : e_obj E = Some o -> s_Y s = Some Y ->
  run_optimization fuel E s mi mt eps ctx = (s', r) -> r <> None ->
  s_X s' = s_X s /\ s_Y s' = s_Y s /\ s_hist s' = s_hist s /\
  (r = Some (Ok tt) -> (exists t, mt = LFin t /\ (t <= 0)%Qc) \/ exists m Xm Ym, snd (e_update E m Xm Ym) = Some LinAlgError).
Proof.
  intros O SY. unfold run_optimization. rewrite O. unfold initial_evaluation. sproj. rewrite SY. cbv beta iota zeta. sproj.
  destruct (loop fuel E o _ _ eps _ _) as [s1 r1] eqn:L. intros H NN.
  assert (R1 : r1 <> None) by (intros ->; injection H as _ <-; now apply NN).
  pose proof (np_loop _ _ _ _ _ _ _ _ _ L R1) as (A & B & C & D). sproj in *.
  assert (TT : time_left (snd (stop_conditions mi mt)) q0 = false -> exists t, mt = LFin t /\ (t <= 0)%Qc).
  { unfold time_left. destruct (snd (stop_conditions mi mt)) as [t|] eqn:SC; [|discriminate]. intros F. apply limit_time in SC. exists t. split; [exact SC|].
    destruct (Qclt_le_dec q0 t) as [P|P]; [|exact P]. apply qclt_spec in P. congruence. }
  destruct r1 as [[[]|e]|]; [| |now contradiction R1].
  - assert (OC : (exists t, mt = LFin t /\ (t <= 0)%Qc) \/ exists m Xm Ym, snd (e_update E m Xm Ym) = Some LinAlgError).
    { destruct D as [[D1 _]|(D1 & [(_ & D2)|(e & D2 & _)])]; [left; now apply TT|now right|discriminate]. }
    destruct (compute_results s1) as [s2 r2] eqn:CR. injection H as <- <-.
    assert (S2 : s_X s2 = s_X s1 /\ s_Y s2 = s_Y s1 /\ s_hist s2 = s_hist s1).
    { revert CR. unfold compute_results. destruct (s_Y s1) as [Y1|] eqn:SY1; [|intros [= <- _]; auto]. destruct (argmin Y1); [|intros [= <- _]; auto].
      destruct (get (s_X s1) n); [destruct (py_min Y1)|]; intros [= <- _]; sproj; auto. }
    destruct S2 as (X2 & Y2 & H2). split; [congruence|]. split; [congruence|]. split; [congruence|]. intros _. exact OC.
  - injection H as <- <-. split; [congruence|]. split; [congruence|]. split; [congruence|]. discriminate.
Qed.
Theorem np_suggest s ctx p i : exists s' e, suggest_next_locations E s ctx p i = (s', Some (Raise e)) /\ s_X s' = s_X s /\ s_Y s' = s_Y s /\ s_hist s' = s_hist s.
Proof.
  unfold suggest_next_locations. cbv zeta. set (s1 := set_ctx _ _). destruct (update_model E s1) as [s2 r] eqn:UM. apply np_update in UM.
  destruct UM as ((m & pp & U & ->) & (e & ->) & _). exists (with_model s1 m pp U), e. auto.
Qed.
Theorem np_history ops : forall s Y s', e_obj E <> None -> s_Y s = Some Y -> history_caught E s ops s' -> s_X s' = s_X s /\ s_Y s' = s_Y s /\ s_hist s' = s_hist s.
Proof.
  induction ops as [|op ops IH]; intros s Y s' O SY H; [cbn in H; subst; auto|]. destruct H as (s1 & r & ST & H).
  assert (K : s_X s1 = s_X s /\ s_Y s1 = s_Y s /\ s_hist s1 = s_hist s).
  { destruct op as [fuel mi mt eps ctx|ctx p i]; cbn [step] in ST.
    - destruct (e_obj E) as [o|] eqn:EO; [|now contradiction O]. destruct (np_run fuel s Y mi mt eps ctx s1 (Some r) o EO SY ST) as (A & B & C & _); [discriminate|auto].
    - destruct (np_suggest s ctx p i) as (s2 & e & S & K). rewrite S in ST. injection ST as <- _. exact K. }
  destruct K as (A & B & C). destruct (IH s1 Y s') as (A' & B' & C'); auto; [congruence|]. repeat split; congruence.
Qed.
(** If training itself works, the exception is AttributeError. *)
Theorem np_attribute_error fuel s Y mi mt eps ctx o Xm : e_obj E = Some o -> s_Y s = Some Y -> Y <> [] -> 0 < fuel -> (forall t, mt = LFin t -> (0 < t)%Qc) ->
  e_interval E <> 0%Z -> unzip_inputs (e_space E) (s_X s) = Ok Xm -> (forall m X Y, snd (e_update E m X Y) = None) ->
  exists s', run_optimization fuel E s mi mt eps ctx = (s', Some (Raise AttributeError)).
Proof.
  intros O SY NY FU TL IV UZ UP. unfold run_optimization. rewrite O. unfold initial_evaluation. sproj. rewrite SY. cbv beta iota zeta.
  destruct fuel as [|fuel]; [lia|]. rewrite loop_iter. set (s1 := set_ynew _ _).
  assert (SY1 : s_Y s1 = Some Y) by exact SY. assert (SX1 : s_X s1 = s_X s) by reflexivity. assert (SN1 : s_num s1 = 0) by reflexivity.
  unfold iter. change (s_cum s1) with q0.
  assert (TLT : time_left (snd (stop_conditions mi mt)) q0 = true).
  { unfold time_left. destruct (snd (stop_conditions mi mt)) as [t|] eqn:SC; [|reflexivity]. apply limit_time in SC. apply qclt_spec. apply TL. exact SC. }
  rewrite TLT. clearbody s1.
  assert (UM : exists s2, update_model E s1 = (s2, Raise AttributeError)).
  { unfold update_model. destruct (Z.eqb_spec (e_interval E) 0); [contradiction|]. pose proof (due_0 (e_interval E)) as DD. unfold due in DD. rewrite SN1, DD, SX1, UZ, SY1.
    assert (NN : exists Ym, normalized (e_norm E) Y = Ok Ym) by (unfold normalized; destruct (e_norm E); [destruct Y; [now contradiction NY|eauto]|eauto]).
    destruct NN as [Ym ->]. cbv zeta. specialize (UP (s_model (add_update s1 Xm Ym)) Xm Ym). destruct (e_update E (s_model (add_update s1 Xm Ym)) Xm Ym) as [m' [e|]]; [discriminate|].
    unfold save_params. rewrite NP. eauto. }
  destruct UM as [s2 ->]. eauto.
Qed.
End NoParams.
