(** What the distance test of run_optimization does over the life of an object: proofs. *)
From Coq Require Import String List ZArith QArith Qcanon Bool Lia.
From Verif.Model Require Import Py Space Design Optim Objective BO.
From Verif.Spec Require Import BOSpec EpsSpec.
From Verif.Proof Require Import Num BOP BOLoop BOMain BOMain2.
Import ListNotations.
Local Open Scope nat_scope.

Section Eps.
Context {M : Type}.
Notation env := (env M).
Notation st := (st M).

Lemma close_iff eps X : last_two_close eps X = true <-> together eps X.
Proof.
  split; [apply close_spec|]. intros (pre & a & b & -> & A & B). unfold last_two_close. rewrite rev_app_distr. cbn [rev app]. apply andb_true_iff. split; now apply qcle_spec.
Qed.
Lemma close_long eps X : together eps X -> 1 < length X.
Proof. intros (pre & a & b & -> & _). rewrite app_length. cbn. lia. Qed.
Lemma close_mono eps eps' X : together eps X -> (eps <= eps')%Qc -> together eps' X.
Proof.
  intros (pre & a & b & -> & A & B) L. exists pre, a, b. split; [reflexivity|]. split; [apply Qcle_trans with eps; assumption|]. apply Qcle_trans with (1 := B).
  apply Qcle_trans with (eps * eps')%Qc; [rewrite (Qcmult_comm eps eps'); apply Qcmult_le_compat_r; assumption | apply Qcmult_le_compat_r; [exact L | apply Qcle_trans with eps; assumption]].
Qed.
Lemma iter_close (E : env) o mi mt eps z s : together eps (s_X s) ->
  exists s' r, iter E o mi mt eps z s = (s', Some r) /\ s_X s' = s_X s /\ s_Y s' = s_Y s /\ s_hist s' = s_hist s /\ s_cost s' = s_cost s /\ s_num s' = s_num s.
Proof.
  intros H. unfold iter. destruct (time_left mt (s_cum s)); [|do 2 eexists; split; [reflexivity|auto 10]].
  destruct (update_model E s) as [s1 r1] eqn:UM. apply update_model_spec in UM. destruct UM as (m & p & U & -> & _). destruct r1 as [[]|e].
  - sproj. pose proof (close_long _ _ H) as L. apply Nat.ltb_lt in L. rewrite L. rewrite (proj2 (close_iff eps (s_X s)) H). cbn [andb]. rewrite orb_true_r. do 2 eexists. split; [reflexivity|]. sproj. auto 10.
  - destruct e; (do 2 eexists; split; [reflexivity|]; sproj; auto 10).
Qed.
Lemma loop_close (E : env) o mi mt eps z fuel s s' r : together eps (s_X s) -> loop fuel E o mi mt eps z s = (s', r) ->
  s_X s' = s_X s /\ s_Y s' = s_Y s /\ s_hist s' = s_hist s /\ s_cost s' = s_cost s /\ s_num s' = s_num s.
Proof.
  intros H. destruct fuel as [|fuel]; [cbn; intros [= <- <-]; auto|]. rewrite loop_iter. destruct (iter_close E o mi mt eps z s H) as (s1 & r1 & -> & F). intros [= <- <-]. exact F.
Qed.
Lemma run_close (E : env) o fuel s mi mt eps ctx s' r : e_obj E = Some o -> together eps (s_X s) -> s_Y s <> None -> run_optimization fuel E s mi mt eps ctx = (s', r) ->
  s_X s' = s_X s /\ s_Y s' = s_Y s /\ s_hist s' = s_hist s /\ s_cost s' = s_cost s /\ s_num s' = 0.
Proof.
  intros O H NY. unfold run_optimization. rewrite O. unfold initial_evaluation. sproj. destruct (s_Y s) as [Y|] eqn:EY; [|congruence]. cbv zeta.
  destruct (loop _ _ _ _ _ _ _ _) as [s1 r1] eqn:L. apply loop_close in L; [|sproj; exact H]. sproj in *. destruct L as (A & B & C & D & F).
  destruct r1 as [[[]|e]|]; [|intros [= <- <-]; rewrite A, B, C, D, F, EY; auto..].
  destruct (compute_results s1) as [s2 q] eqn:CR. apply compute_results_spec in CR. destruct CR as [CR _]. intros [= <- <-]. rewrite CR. sproj. rewrite A, B, C, D, F, EY. auto.
Qed.
Lemma ops_close (E : env) o eps : e_obj E = Some o -> forall ops s s', together eps (s_X s) -> s_Y s <> None ->
  (forall fuel mi mt eps' ctx, In (ORun fuel mi mt eps' ctx) ops -> (eps <= eps')%Qc) -> history_caught E s ops s' ->
  s_X s' = s_X s /\ s_Y s' = s_Y s /\ s_hist s' = s_hist s /\ s_cost s' = s_cost s.
Proof.
  intros O. induction ops as [|op ops IH]; intros s s' H NY HE HH; cbn [history_caught] in HH; [subst s'; auto|].
  destruct HH as (s1 & r & ST & HH).
  assert (F : s_X s1 = s_X s /\ s_Y s1 = s_Y s /\ s_hist s1 = s_hist s /\ s_cost s1 = s_cost s).
  { destruct op as [fuel mi mt eps' ctx|ctx p i]; cbn [step] in ST.
    - destruct (run_close E o fuel s mi mt eps' ctx s1 (Some r) O) as (A & B & C & D & _); auto. apply (close_mono eps); [exact H|]. eapply HE. left. reflexivity.
    - destruct (suggest_next_locations E s ctx p i) as [s2 r2] eqn:S. injection ST as -> _. destruct (suggest_frame _ _ _ _ _ _ _ S) as (A & B & C & _ & D & _). auto. }
  destruct F as (A & B & C & D). destruct (IH s1 s') as (A' & B' & C' & D').
  - now rewrite A.
  - now rewrite B.
  - intros. eapply HE. right. eassumption.
  - exact HH.
  - repeat split; congruence.
Qed.
(** the rows of the last batch decide *)
Lemma steps_apart (E : env) o mi mt eps z : (forall m odm cm m' b B, e_batch E m odm cm = (m', Some (Ok b)) -> zip_inputs (e_space E) b = Ok B -> exists pre x y, B = pre ++ [y; x] /\ ~ within_eps eps x y) ->
  forall n s s', steps E o mi mt eps z n s s' -> n <> 0 -> ~ together eps (s_X s').
Proof.
  intros HB n s s' H. induction H as [s|n s s1 s2 I H IH]; intros N; [congruence|]. destruct n as [|n]; [|apply IH; congruence].
  inversion H; subst. apply iter_go in I. destruct I as (m & p & U & s1 & b & ys & cs & h & t & c & _ & _ & _ & _ & _ & _ & _ & (m2 & CN & ->)). sproj.
  unfold compute_next_evaluations in CN. destruct (context_manager (e_space E) (s_ctx s1)) as [cm|e]; [|discriminate].
  destruct (e_batch E (s_model s1) _ cm) as [m3 r3] eqn:EB. injection CN as _ CN. destruct r3 as [[b0|e]|]; try discriminate. cbn in CN. destruct (zip_inputs (e_space E) b0) as [B|e] eqn:Z; [|discriminate]. injection CN as ->.
  destruct (HB _ _ _ _ _ _ EB Z) as (pre & x & y & -> & NW). intros (pre' & x' & y' & EQ & W).
  change [y; x] with ([y] ++ [x]) in EQ. change [y'; x'] with ([y'] ++ [x']) in EQ. rewrite !app_assoc in EQ. apply app_inj_tail in EQ. destruct EQ as [EQ ->]. apply app_inj_tail in EQ. destruct EQ as [_ ->]. contradiction.
Qed.
End Eps.
