(** What the three kinds of anchor scores select: C23. *)
From Coq Require Import String List ZArith QArith Qcanon Bool Lia Permutation Sorting.Sorted.
From Verif.Model Require Import Py Space Design Optim.
From Verif.Spec Require Import SpaceSpec DesignSpec ContextSpec SuggestSpec.
From Verif.Proof Require Import Num SpaceP AnchorP SuggestP.
Import ListNotations.
Local Open Scope nat_scope.

Lemma lowest_acquisition a ns g odm W : aq_logic a = "max_objective"%string ->
  anchor_candidates (aq_space a) "random" ns g false (Some (aq_cm a)) = Some (Ok W) ->
  argsorts (g_argsort g) -> Forall (zippable odm) W ->
  exists V, selects (unknown odm) W V /\ (V = [] -> acq_anchors a ns g odm = Some (Raise FullyExplored)) /\
    forall s, V <> [] -> Forall2 (fun v y => aq_f a v = Ok y) V s ->
      exists A, acq_anchors a ns g odm = Some (Ok A) /\ length A = Nat.min 5 (length V) /\ best_of V s A.
Proof.
  intros L HW SA Z. unfold acq_anchors. rewrite L. cbn [String.eqb Ascii.eqb Bool.eqb].
  destruct (anchor_get_main _ _ _ _ (objective_scores (aq_f a)) 5 _ _ _ _ HW SA Z) as (V & H1 & H2 & H3).
  exists V. split; [exact H1|]. split; [exact H2|]. intros s NV F. apply H3; auto.
  - apply mapM_ok_Forall2. exact F.
  - symmetry. eapply Forall2_len; eauto.
Qed.

Lemma thompson_from_ok predict (nrm : nat -> Qc) : forall V ms (i : nat) s,
  Forall2 (fun v p => predict v = Ok p /\ (0 <= snd p)%Qc) V ms -> length s = length V ->
  (forall k m sd, nth_error ms k = Some (m, sd) -> nth_error s k = Some (m + sd * nrm (i + k)%nat)%Qc) ->
  thompson_from predict nrm i V = Ok s.
Proof.
  induction V as [|v V IH]; intros ms i s F L H.
  { destruct s; [reflexivity|discriminate]. }
  destruct ms as [|(m & sd) ms]; [inversion F|]. assert (F' : (predict v = Ok (m, sd) /\ (0 <= snd (m, sd))%Qc) /\ Forall2 (fun v p => predict v = Ok p /\ (0 <= snd p)%Qc) V ms) by (inversion F; auto).
  clear F. destruct F' as ((P & N) & F).
  destruct s as [|y s]; [discriminate|]. cbn [thompson_from]. rewrite P. cbn [bind fst snd] in *.
  assert (Q : qclt sd q0 = false).
  { unfold qclt. apply Bool.negb_false_iff, Qle_bool_iff. exact N. }
  rewrite Q. rewrite (IH ms (S i) s); auto.
  - pose proof (H 0 m sd eq_refl) as H0. cbn [nth_error] in H0. rewrite Nat.add_0_r in H0. injection H0 as ->. reflexivity.
  - intros k m' sd' Hk. specialize (H (S k) m' sd' Hk). cbn [nth_error] in H. rewrite H. do 4 f_equal. lia.
Qed.

Lemma thompson_sample a predict (nrm : nat -> Qc) ns g odm W : aq_logic a = "thompson_sampling"%string ->
  aq_ts a = Some (thompson_scores predict nrm) ->
  anchor_candidates (aq_space a) "sobol" ns g false (Some (aq_cm a)) = Some (Ok W) ->
  argsorts (g_argsort g) -> Forall (zippable odm) W ->
  exists V, selects (unknown odm) W V /\ (V = [] -> acq_anchors a ns g odm = Some (Raise FullyExplored)) /\
    forall ms s, V <> [] -> Forall2 (fun v p => predict v = Ok p /\ (0 <= snd p)%Qc) V ms -> length s = length V ->
      (forall k m sd, nth_error ms k = Some (m, sd) -> nth_error s k = Some (m + sd * nrm k)%Qc) ->
      exists A, acq_anchors a ns g odm = Some (Ok A) /\ length A = Nat.min 5 (length V) /\ best_of V s A.
Proof.
  intros L T HW SA Z. unfold acq_anchors. rewrite L, T. cbn [String.eqb Ascii.eqb Bool.eqb].
  destruct (anchor_get_main _ _ _ _ (thompson_scores predict nrm) 5 _ _ _ _ HW SA Z) as (V & H1 & H2 & H3).
  exists V. split; [exact H1|]. split; [exact H2|]. intros ms s NV F Ls Hs. apply H3; auto.
  unfold thompson_scores. apply thompson_from_ok with ms; auto.
Qed.

Lemma sorted_seq : forall n a p, Permutation p (seq a n) -> StronglySorted le p -> p = seq a n.
Proof.
  induction n as [|n IH]; intros a p P S; [apply Permutation_sym, Permutation_nil in P; exact P|].
  destruct p as [|x p]; [apply Permutation_nil in P; discriminate|]. inversion S; subst.
  assert (x = a).
  { assert (I : In x (seq a (Datatypes.S n))) by (eapply Permutation_in; [exact P|now left]). apply in_seq in I.
    assert (J : In a (x :: p)) by (eapply Permutation_in; [apply Permutation_sym, P|now left]).
    destruct J as [->|J]; [reflexivity|]. rewrite Forall_forall in H2. specialize (H2 a J). lia. }
  subst. cbn [seq] in *. f_equal. apply IH; auto. eapply Permutation_cons_inv; eauto.
Qed.
Lemma sorting_positions n p : sorting_perm (map nat2q (seq 0 n)) p -> p = seq 0 n.
Proof.
  intros (P & S). rewrite map_length, seq_length in P. apply sorted_seq; auto.
  assert (Q : forall l, StronglySorted (score_le (map nat2q (seq 0 n))) l -> StronglySorted le l); [|auto].
  induction 1; constructor; auto. rewrite Forall_forall in *. intros y Hy. destruct (H0 y Hy) as (u & v & E1 & E2 & E3).
  rewrite nth_error_map in E1, E2. destruct (nth_error (seq 0 n) a) eqn:A1; [|discriminate]. destruct (nth_error (seq 0 n) y) eqn:A2; [|discriminate].
  injection E1 as <-. injection E2 as <-.
  assert (B : forall i k, nth_error (seq 0 n) i = Some k -> k = i).
  { intros i k E. assert (L : i < n) by (rewrite <- (seq_length n 0); apply nth_error_Some; congruence).
    rewrite (nth_error_nth' _ 0) in E by (rewrite seq_length; auto). rewrite seq_nth in E by auto. injection E as <-. lia. }
  apply B in A1. apply B in A2. subst. destruct (le_lt_dec a y) as [|C]; auto. apply nat2q_lt in C. exfalso. exact (Qcle_not_lt _ _ E3 C).
Qed.
Lemma mapM_get_seq {A} (V W : list A) : mapM (get (V ++ W)) (seq (length V) (length W)) = Ok W.
Proof.
  revert V. induction W as [|w W IH]; intros V; [reflexivity|]. cbn [length seq mapM].
  rewrite (get_some _ _ w) by (rewrite nth_error_app2 by lia; now rewrite Nat.sub_diag). cbn [bind].
  pose proof (IH (V ++ [w])) as H. rewrite <- app_assoc, app_length in H. cbn [app length] in H. rewrite Nat.add_1_r in H. rewrite H. reflexivity.
Qed.
Lemma mapM_firstn {A B} (f : A -> res B) l bs k : mapM f l = Ok bs -> mapM f (firstn k l) = Ok (firstn k bs).
Proof.
  intro H. apply mapM_ok_Forall2. apply mapM_ok_Forall2 in H. revert k. induction H; intros [|k]; cbn; constructor; auto.
Qed.

Lemma random_in_order a size ns g odm W :
  anchor_candidates (aq_space a) "random" ns g (match odm with Some _ => true | None => false end) (Some (aq_cm a)) = Some (Ok W) ->
  argsorts (g_argsort g) -> Forall (zippable odm) W ->
  exists V, selects (unknown odm) W V /\
    random_anchors a size ns g odm = Some (match V with [] => Raise FullyExplored | _ => Ok (firstn (5 * size) V) end).
Proof.
  intros HW SA Z. destruct (filter_new_total odm W Z) as (V & HV). exists V. split; [apply filter_new_selects; auto|].
  unfold random_anchors, anchor_get. rewrite HW. cbn [rbind]. rewrite HV. cbn [bind]. destruct V as [|v V]; [reflexivity|].
  unfold random_scores. cbn [bind]. rewrite (sorting_positions _ _ (SA _)). f_equal.
  pose proof (mapM_firstn _ _ _ (Nat.min (length (map nat2q (seq 0 (length (v :: V))))) (5 * size)) (mapM_get_seq [] (v :: V))) as H. cbn [app] in H.
  unfold mat, vec in *. change (length (@nil (list Qc))) with 0 in H.
  rewrite H. f_equal. rewrite map_length, seq_length.
  destruct (le_lt_dec (length (v :: V)) (5 * size)).
  - rewrite Nat.min_l by lia. rewrite !firstn_all2; auto.
  - rewrite Nat.min_r by lia. reflexivity.
Qed.
