(** Optimizers that share a surrogate: proofs. *)
From Coq Require Import String List ZArith QArith Qcanon Bool Arith Lia.
From Verif.Model Require Import Py Space Design Optim Objective BO Shared.
From Verif.Spec Require Import SharedSpec.
Import ListNotations.
Local Open Scope nat_scope.

Section P.
Context {S G : Type}.
Notation env := (env (S * G)).
Notation st := (st (S * G)).

Lemma same_iff : forall s s' : st, same_optimizer s s' <-> exists c, s' = with_surrogate c s.
Proof.
  intros s s'. split.
  - intros H. exists (fst (s_model s')). destruct s, s' as [? ? ? [c g] ? ? ? ? ? ? ? ? ? ?]. unfold same_optimizer, with_surrogate, set_model in *. cbn in *. decompose [and] H. subst. reflexivity.
  - intros (c & ->). destruct s. cbn. unfold same_optimizer. cbn. intuition.
Qed.
Lemma same_refl : forall s : st, same_optimizer s s.
Proof. intros s. unfold same_optimizer. intuition. Qed.
Lemma same_sym : forall s s' : st, same_optimizer s s' -> same_optimizer s' s.
Proof. intros s s' H. unfold same_optimizer in *. intuition congruence. Qed.
Lemma same_trans : forall s s' s'' : st, same_optimizer s s' -> same_optimizer s' s'' -> same_optimizer s s''.
Proof. intros s s' s'' H K. unfold same_optimizer in *. decompose [and] H. decompose [and] K. repeat split; congruence. Qed.
Lemma same_with : forall c (s : st), same_optimizer s (with_surrogate c s).
Proof. intros c s. apply same_iff. now exists c. Qed.
Lemma with_same : forall c (s s' : st), same_optimizer s s' -> with_surrogate c s = with_surrogate c s'.
Proof. intros c s s' H. apply same_iff in H. destruct H as (d & ->). destruct s as [? ? ? [e g] ? ? ? ? ? ? ? ? ? ?]. reflexivity. Qed.

(** an update at the beginning of a call: the same outcome; equal states where it succeeds, or fails in updateModel *)
Lemma update_same : forall E c (s : st), forgets E -> s_num s = 0 ->
  snd (update_model E (with_surrogate c s)) = snd (update_model E s) /\
  same_optimizer (fst (update_model E s)) (fst (update_model E (with_surrogate c s))) /\
  (snd (update_model E s) = Ok tt -> fst (update_model E (with_surrogate c s)) = fst (update_model E s)).
Proof.
  intros E c s F N. destruct s as [X Y cost [d g] params ctx num cum sugg ynew report hist tick updates]. cbn in N. subst num.
  unfold update_model, with_surrogate, set_model, add_update. cbn [s_model snd s_X s_Y s_cost s_params s_ctx s_num s_cum s_sugg s_ynew s_report s_hist s_tick s_updates].
  destruct (Z.eqb (e_interval E) 0) eqn:Z0; [split; [reflexivity|]; split; [apply same_with | discriminate]|].
  assert (ZZ : Z.eqb (Z.of_nat 0 mod e_interval E) 0 = true) by (change (Z.of_nat 0) with 0%Z; rewrite Zmod_0_l; reflexivity). rewrite ZZ.
  destruct (unzip_inputs (e_space E) X) as [Xm|e]; [|split; [reflexivity|]; split; [apply (same_with c (mk_st _ X Y cost (d, g) params ctx 0 cum sugg ynew report hist tick updates)) | discriminate]].
  destruct Y as [Y|]; [|split; [reflexivity|]; split; [apply (same_with c (mk_st _ X None cost (d, g) params ctx 0 cum sugg ynew report hist tick updates)) | discriminate]].
  destruct (normalized (e_norm E) Y) as [Ym|e]; [|split; [reflexivity|]; split; [apply (same_with c (mk_st _ X (Some Y) cost (d, g) params ctx 0 cum sugg ynew report hist tick updates)) | discriminate]].
  rewrite (F c d g Xm Ym). split; [reflexivity|]. split; [apply same_refl | reflexivity].
Qed.
Lemma loop_same : forall fuel E o mi mt eps z c (s : st), forgets E -> s_num s = 0 ->
  snd (loop fuel E o mi mt eps z (with_surrogate c s)) = snd (loop fuel E o mi mt eps z s) /\
  same_optimizer (fst (loop fuel E o mi mt eps z s)) (fst (loop fuel E o mi mt eps z (with_surrogate c s))).
Proof.
  intros [|fuel] E o mi mt eps z c s F N; cbn [loop]; [split; [reflexivity | apply same_with]|]. change (s_cum (with_surrogate c s)) with (s_cum s).
  destruct (time_left mt (s_cum s)); [|split; [reflexivity | apply same_with]]. destruct (update_same E c s F N) as (U1 & U2 & U3).
  destruct (update_model E s) as [s1 [[]|e]]; destruct (update_model E (with_surrogate c s)) as [s2 r2]; cbn [fst snd] in *; subst r2.
  - rewrite (U3 eq_refl). split; [reflexivity | apply same_refl].
  - destruct e; (split; [reflexivity | exact U2]).
Qed.
Lemma results_same : forall s s' : st, same_optimizer s s' -> snd (compute_results s') = snd (compute_results s) /\ same_optimizer (fst (compute_results s)) (fst (compute_results s')).
Proof.
  intros s s' H. apply same_iff in H. destruct H as (c & ->). unfold compute_results. change (s_Y (with_surrogate c s)) with (s_Y s). change (s_X (with_surrogate c s)) with (s_X s).
  destruct (s_Y s) as [Y|]; [|split; [reflexivity | apply same_with]]. destruct (argmin Y); [|split; [reflexivity | apply same_with]].
  destruct (get (s_X s) n); [|split; [reflexivity | apply same_with]]. destruct (py_min Y); [|split; [reflexivity | apply same_with]].
  split; [reflexivity|]. apply same_iff. exists c. reflexivity.
Qed.
Lemma initial_same : forall E o c (s : st), snd (initial_evaluation E o (with_surrogate c s)) = snd (initial_evaluation E o s) /\
  fst (initial_evaluation E o (with_surrogate c s)) = with_surrogate c (fst (initial_evaluation E o s)).
Proof.
  intros E o c s. destruct s as [X Y cost [d g] params ctx num cum sugg ynew report hist tick updates]. unfold initial_evaluation, with_surrogate, set_model, set_world, set_Y, set_cost.
  cbn [s_model snd s_X s_Y s_cost s_params s_ctx s_num s_cum s_sugg s_ynew s_report s_hist s_tick s_updates]. destruct Y as [Y|]; [split; reflexivity|].
  destruct (evaluate o (e_clock E) hist tick X) as [[h t] [[[ys cs]|e]|]]; [|split; reflexivity|split; reflexivity]. cbn [s_cost s_X].
  destruct (is_time_cost cost); [|split; reflexivity]. destruct (update_cost_model (e_lg E) (e_costfit E) cost X cs) as [c' [u|e]]; split; reflexivity.
Qed.
Lemma call_same : forall E c (s : st) o, forgets E -> snd (call E (with_surrogate c s) o) = snd (call E s o) /\ same_optimizer (fst (call E s o)) (fst (call E (with_surrogate c s) o)).
Proof.
  intros E c s [fuel mi mt eps ctx|ctx p i] F; cbn [call].
  - enough (H : snd (run_optimization fuel E (with_surrogate c s) mi mt eps ctx) = snd (run_optimization fuel E s mi mt eps ctx) /\
      same_optimizer (fst (run_optimization fuel E s mi mt eps ctx)) (fst (run_optimization fuel E (with_surrogate c s) mi mt eps ctx))).
    { destruct (run_optimization fuel E s mi mt eps ctx) as [s1 r1], (run_optimization fuel E (with_surrogate c s) mi mt eps ctx) as [s2 r2]. cbn [fst snd] in *. destruct H as [-> H]. split; [reflexivity | exact H]. }
    unfold run_optimization. destruct (e_obj E) as [o|]; [|split; [reflexivity | apply same_with]].
    change (set_ctx (set_params (with_surrogate c s) None) ctx) with (with_surrogate c (set_ctx (set_params s None) ctx)). set (s0 := set_ctx (set_params s None) ctx).
    destruct (initial_same E o c s0) as [I1 I2]. destruct (initial_evaluation E o s0) as [s1 r1]. destruct (initial_evaluation E o (with_surrogate c s0)) as [s2 r2]. cbn [fst snd] in *. subst r2 s2.
    destruct r1 as [[u|e]|]; [|split; [reflexivity | apply same_with]|split; [reflexivity | apply same_with]]. cbn zeta.
    set (t := set_ynew (set_sugg (set_num (set_cum (set_world s1 (s_hist s1) (Datatypes.S (s_tick s1))) q0) 0) (s_X s1)) (s_Y s1)).
    pose proof (loop_same fuel E o (fst (stop_conditions mi mt)) (snd (stop_conditions mi mt)) eps (e_clock E (s_tick s1)) c t F eq_refl) as [L1 L2].
    change (s_X (set_world s1 (s_hist s1) (Datatypes.S (s_tick s1)))) with (s_X s1). change (s_Y (set_world s1 (s_hist s1) (Datatypes.S (s_tick s1)))) with (s_Y s1). fold t.
    match goal with |- context [loop fuel E o _ _ eps (e_clock E (s_tick (with_surrogate c s1))) ?x] => change x with (with_surrogate c t) end.
    change (s_tick (with_surrogate c s1)) with (s_tick s1).
    destruct (loop fuel E o (fst (stop_conditions mi mt)) (snd (stop_conditions mi mt)) eps (e_clock E (s_tick s1)) t) as [s3 r3].
    destruct (loop fuel E o (fst (stop_conditions mi mt)) (snd (stop_conditions mi mt)) eps (e_clock E (s_tick s1)) (with_surrogate c t)) as [s4 r4]. cbn [fst snd] in *. subst r4.
    destruct r3 as [[v|e]|]; [|split; [reflexivity | exact L2]|split; [reflexivity | exact L2]]. destruct (results_same _ _ L2) as [R1 R2].
    destruct (compute_results s3), (compute_results s4). cbn [fst snd] in *. subst. split; [reflexivity | exact R2].
  - unfold suggest_next_locations. change (set_ctx (set_num (set_params (with_surrogate c s) None) 0) ctx) with (with_surrogate c (set_ctx (set_num (set_params s None) 0) ctx)).
    set (t := set_ctx (set_num (set_params s None) 0) ctx). destruct (update_same E c t F eq_refl) as (U1 & U2 & U3).
    destruct (update_model E t) as [s1 [[]|e]]; destruct (update_model E (with_surrogate c t)) as [s2 r2]; cbn [fst snd] in *; subst r2.
    + rewrite (U3 eq_refl). destruct (compute_next_evaluations E s1 p i). split; [reflexivity | apply same_refl].
    + split; [reflexivity | exact U2].
Qed.
Lemma by_itself_same : forall E os (s s' : st), forgets E -> same_optimizer s s' -> fst (by_itself E s' os) = fst (by_itself E s os) /\ same_optimizer (snd (by_itself E s os)) (snd (by_itself E s' os)).
Proof.
  intros E os. induction os as [|o os IH]; intros s s' F H; cbn [by_itself]; [split; [reflexivity | exact H]|]. apply same_iff in H. destruct H as (c & ->).
  destruct (call_same E c s o F) as [C1 C2]. destruct (call E s o) as [s1 r1]. destruct (call E (with_surrogate c s) o) as [s2 r2]. cbn [fst snd] in *. subst r2.
  destruct (IH s1 s2 F C2) as [I1 I2]. destruct (by_itself E s1 os), (by_itself E s2 os). cbn [fst snd] in *. subst. split; [reflexivity | exact I2].
Qed.
Lemma together_alone : forall (Es : nat -> env) i, forgets (Es i) -> forall calls c ss s, same_optimizer s (ss i) ->
  of i (fst (together Es c ss calls)) = fst (by_itself (Es i) s (of i calls)) /\ same_optimizer (snd (by_itself (Es i) s (of i calls))) (snd (together Es c ss calls) i).
Proof.
  intros Es i F calls. induction calls as [|[j o] calls IH]; intros c ss s H; cbn [together]; [split; [reflexivity | exact H]|].
  destruct (call (Es j) (with_surrogate c (ss j)) o) as [s1 r1] eqn:C1.
  specialize (IH (fst (s_model s1)) (store ss j s1)). destruct (together Es (fst (s_model s1)) (store ss j s1) calls) as [rs ss'] eqn:T. cbn [fst snd] in *.
  unfold of in *. cbn [filter fst]. destruct (Nat.eqb j i) eqn:J.
  - apply Nat.eqb_eq in J. subst j. cbn [map snd by_itself]. assert (K : same_optimizer s (with_surrogate c (ss i))) by (eapply same_trans; [exact H | apply same_with]).
    apply same_iff in K. destruct K as (d & K). destruct (call_same (Es i) d s o F) as [D1 D2]. rewrite <- K, C1 in D1, D2. cbn [fst snd] in *. destruct (call (Es i) s o) as [s2 r2]. cbn [fst snd] in *. subst r2.
    destruct (IH s2) as [I1 I2]; [unfold store; now rewrite Nat.eqb_refl|]. destruct (by_itself (Es i) s2 (map snd (filter (fun p => fst p =? i) calls))) as [q s3]. cbn [fst snd] in *. split; [now rewrite I1 | exact I2].
  - apply IH. unfold store. rewrite Nat.eqb_sym, J. exact H.
Qed.
End P.
