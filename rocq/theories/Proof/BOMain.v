(** Whole runs: the data they collect, the calls they make, why they stop, what they report. *)
From Coq Require Import String List ZArith QArith Qcanon Bool Lia.
From Verif.Model Require Import Py Space Design Optim Objective BO.
From Verif.Spec Require Import BOSpec.
From Verif.Proof Require Import Num BOP BOLoop.
Import ListNotations.
Local Open Scope nat_scope.

Section Main.
Context {M : Type}.
Notation env := (env M).
Notation st := (st M).

Lemma steps_snoc (E : env) o mi mt eps z : forall n s s2, steps E o mi mt eps z (S n) s s2 ->
  exists s1, steps E o mi mt eps z n s s1 /\ iter E o mi mt eps z s1 = (s2, None).
Proof.
  induction n as [|n IH]; intros s s2 H; inversion H as [|? ? s1 ? I R]; subst.
  - inversion R; subst. exists s. split; [constructor|exact I].
  - apply IH in R. destruct R as (s3 & A & B). exists s3. split; [econstructor; eauto|exact B].
Qed.

Lemma concat_snoc {A} (l : list (list A)) x : concat (l ++ [x]) = concat l ++ x.
Proof. now rewrite concat_app; simpl; rewrite app_nil_r. Qed.
Lemma concat_m (l : list mat) (x : mat) : concat (l ++ [x]) = concat l ++ x. Proof. apply concat_snoc. Qed.
Lemma concat_v (l : list vec) (x : vec) : concat (l ++ [x]) = concat l ++ x. Proof. apply concat_snoc. Qed.
Lemma Forall2_snoc {A B} (R : A -> B -> Prop) l l' a b : Forall2 R l l' -> R a b -> Forall2 R (l ++ [a]) (l' ++ [b]).
Proof. intros F H. apply Forall2_app; auto. Qed.
Lemma values_at_app f r1 y1 r2 y2 : values_at f r1 y1 -> values_at f r2 y2 -> values_at f (r1 ++ r2) (y1 ++ y2).
Proof. apply Forall2_app. Qed.
Lemma filter_snoc {A} (p : A -> bool) l x : filter p (l ++ [x]) = filter p l ++ (if p x then [x] else []).
Proof. rewrite filter_app. simpl. now destruct (p x). Qed.

(** [n] full iterations from a state with data. *)
Definition trajectory (E : env) (o : objective) (s : st) (Y : vec) (n : nat) (s1 : st) (bs : list mat) (yss : list vec) : Prop :=
  length bs = n /\ length yss = n /\
  s_X s1 = s_X s ++ concat bs /\ s_Y s1 = Some (Y ++ concat yss) /\
  Forall2 (fun b ys => length b = length ys) bs yss /\
  (o_procs o = 1 -> s_hist s1 = s_hist s ++ concat bs /\ answers (o_fun o) (s_hist s) (concat bs) (concat yss)) /\
  (stateless (o_fun o) -> 1 <= o_procs o -> values_at (o_fun o) (concat bs) (concat yss)) /\
  s_ctx s1 = s_ctx s /\ s_report s1 = s_report s /\ s_num s1 = s_num s + n /\
  (exists P, hist_rows (s_params s1) = hist_rows (s_params s) ++ P /\ length P = n) /\
  (exists l, s_hist s1 = s_hist s ++ l).

Lemma steps_traj (E : env) o mi mt eps z : forall n s s1 Y, steps E o mi mt eps z n s s1 -> s_Y s = Some Y ->
  exists bs yss, trajectory E o s Y n s1 bs yss /\
    (s_num s = 0 -> exists U, s_updates s1 = s_updates s ++ U /\ update_schedule E (s_X s) Y bs yss n U).
Proof.
  induction n as [|n IH]; intros s s1 Y H SY.
  - inversion H; subst. exists [], []. split.
    + unfold trajectory. cbn. rewrite !app_nil_r. split; [reflexivity|]. split; [reflexivity|]. split; [reflexivity|]. split; [exact SY|]. split; [constructor|].
      split; [intros _; split; [reflexivity|apply answers_nil]|]. split; [intros _ _; constructor|].
      split; [reflexivity|]. split; [reflexivity|]. split; [lia|]. split; [exists []; now rewrite app_nil_r|].
      exists []. now rewrite app_nil_r.
    + intros _. exists []. split; [now rewrite app_nil_r|]. split; [reflexivity|]. intros i Xm Ym [].
  - apply steps_snoc in H. destruct H as (s2 & H & I). destruct (IH s s2 Y H SY) as (bs & yss & T & HU).
    destruct T as (L1 & L2 & TX & TY & TF & TA & TV & TC & TR & TN & (P & TP & LP) & (l & TH)).
    apply iter_go in I. destruct I as (m & p & U & s3 & b & ys & cs & h & t & c & TL & UM & -> & ID & CL & EV & UC & m2 & CN & ->).
    apply update_model_spec in UM. destruct UM as (m' & p' & U' & EQ & DU & (NI & HP & UD)).
    unfold with_model in EQ. injection EQ as <- <- EU. apply app_inv_head in EU. subst U'.
    exists (bs ++ [b]), (yss ++ [ys]). split.
    + unfold trajectory. sproj. rewrite !app_length, concat_m, concat_v, TY. cbn [length].
      split; [lia|]. split; [lia|]. split; [now rewrite TX, app_assoc|]. split; [now rewrite app_assoc|].
      split; [apply Forall2_snoc; auto; symmetry; eapply evaluate_length; eauto|].
      split.
      { intros PR. destruct (TA PR) as [A B]. apply (evaluate_seq_ok _ _ _ _ _ _ _ _ _ PR) in EV. destruct EV as [-> EV].
        rewrite A in *. split; [now rewrite app_assoc|]. now apply answers_app. }
      split; [intros S1 N1; apply values_at_app; [auto|]; eapply evaluate_values; eauto|].
      split; [exact TC|]. split; [exact TR|]. split; [lia|].
      split.
      { destruct HP as (v & _ & HP). exists (P ++ [v]). rewrite app_length, LP. cbn. split; [|lia]. rewrite HP. cbn [hist_rows]. rewrite TP. now rewrite app_assoc. }
      apply evaluate_extends in EV. destruct EV as (l2 & ->). exists (l ++ l2). now rewrite TH, app_assoc.
    + intros Z. destruct (HU Z) as (U0 & EU & SCH). sproj. exists (U0 ++ U). split; [now rewrite EU, app_assoc|].
      destruct SCH as [S1 S2]. split.
      * rewrite map_app, S1, seq_S, filter_snoc. f_equal. rewrite TN, Z in *. cbn [plus] in *.
        destruct DU as [[-> _]|(Xm & Ym & Y0 & -> & D & _)]; [rewrite (UD eq_refl)|rewrite D]; reflexivity.
      * intros i Xm Ym HI. apply in_app_or in HI. destruct HI as [HI|HI].
        -- assert (Hi : i < n).
           { assert (K : In i (map (fun u => fst (fst u)) U0)) by (apply in_map_iff; exists (i, Xm, Ym); auto).
             rewrite S1 in K. apply filter_In in K. destruct K as [K _]. apply in_seq in K. lia. }
           rewrite !firstn_app. replace (i - length bs) with 0 by lia. replace (i - length yss) with 0 by lia.
           cbn [firstn]. rewrite !app_nil_r. now apply S2.
        -- destruct DU as [[-> _]|(Xm' & Ym' & Y0 & -> & D & NZ & SY0 & TD & _)]; [destruct HI|].
           destruct HI as [[= <- <- <-]|[]]. rewrite TN, Z. cbn [plus].
           rewrite !firstn_app, L1, L2, Nat.sub_diag. cbn [firstn]. rewrite !app_nil_r.
           rewrite (firstn_all2 bs) by lia. rewrite (firstn_all2 yss) by lia. rewrite <- TX.
           rewrite TY in SY0. injection SY0 as <-. exact TD.
Qed.

(** The state in which the loop of a run starts. *)
Definition started (E : env) (s0 : st) : st :=
  let s := set_world s0 (s_hist s0) (S (s_tick s0)) in set_ynew (set_sugg (set_num (set_cum s q0) 0) (s_X s)) (s_Y s).

Lemma initial_ok (E : env) o s s0 : initial_evaluation E o s = (s0, Some (Ok tt)) ->
  exists Y0, s_Y s0 = Some Y0 /\ s_X s0 = s_X s /\ s_params s0 = s_params s /\ s_ctx s0 = s_ctx s /\ s_updates s0 = s_updates s /\ s_model s0 = s_model s /\
    s_report s0 = s_report s /\
    match s_Y s with
    | Some Y => Y0 = Y /\ s0 = s
    | None => length Y0 = length (s_X s) /\
        (o_procs o = 1 -> s_hist s0 = s_hist s ++ s_X s /\ answers (o_fun o) (s_hist s) (s_X s) Y0) /\
        (stateless (o_fun o) -> 1 <= o_procs o -> values_at (o_fun o) (s_X s) Y0) /\
        (exists l, s_hist s0 = s_hist s ++ l)
    end.
Proof.
  unfold initial_evaluation. destruct (s_Y s) as [Y|] eqn:SY.
  - intros [= <-]. exists Y. repeat split; auto.
  - destruct (evaluate o (e_clock E) (s_hist s) (s_tick s) (s_X s)) as [[h t] [[[ys cs]|e]|]] eqn:EV; [|discriminate|discriminate].
    cbv zeta. sproj.
    intros H.
    assert (K : exists c, s0 = set_cost (set_Y (set_world s h t) (Some ys)) c).
    { destruct (is_time_cost (s_cost s)).
      - destruct (update_cost_model _ _ _ _ _) as [c [[]|e]]; [|discriminate]. injection H as <-. eauto.
      - injection H as <-. exists (s_cost s). reflexivity. }
    destruct K as (c & ->). sproj. exists ys. repeat (split; [reflexivity|]).
    split; [eapply evaluate_length; eauto|]. split; [intros P; eapply evaluate_seq_ok; eauto|].
    split; [intros S1 N1; eapply evaluate_values; eauto|]. eapply evaluate_extends; eauto.
Qed.

(** If it fails or never ends: X and Y are unchanged, except that a failing cost model comes after Y was stored. *)
Lemma initial_fail (E : env) o s s0 r : initial_evaluation E o s = (s0, r) -> r <> Some (Ok tt) ->
  s_Y s = None /\ s_X s0 = s_X s /\ s_updates s0 = s_updates s /\ s_ctx s0 = s_ctx s /\ s_params s0 = s_params s /\ s_num s0 = s_num s /\ s_report s0 = s_report s /\
  (exists h t q, evaluate o (e_clock E) (s_hist s) (s_tick s) (s_X s) = (h, t, q) /\ s_hist s0 = h /\
     ((s_Y s0 = None /\ s_cost s0 = s_cost s /\ (q = None /\ r = None \/ exists e, q = Some (Raise e) /\ r = Some (Raise e))) \/
      (exists ys cs e, q = Some (Ok (ys, cs)) /\ s_Y s0 = Some ys /\ r = Some (Raise e)))).
Proof.
  unfold initial_evaluation. destruct (s_Y s) as [Y|] eqn:SY.
  - intros [= <- <-] H. now contradiction H.
  - destruct (evaluate o (e_clock E) (s_hist s) (s_tick s) (s_X s)) as [[h t] q] eqn:EV.
    destruct q as [[[ys cs]|e]|].
    + cbv zeta. sproj. intros H NR. split; [reflexivity|].
      destruct (is_time_cost (s_cost s)); [|injection H as <- <-; now contradiction NR].
      destruct (update_cost_model _ _ _ _ _) as [c [[]|e]]; injection H as <- <-; [now contradiction NR|].
      repeat (split; [reflexivity|]). exists h, t, (Some (Ok (ys, cs))). split; [reflexivity|]. split; [reflexivity|]. right. exists ys, cs, e. auto.
    + intros [= <- <-] _. repeat (split; [reflexivity|]). exists h, t, (Some (Raise e)). split; [reflexivity|]. split; [reflexivity|]. left. repeat (split; [assumption||reflexivity|]). right. eauto.
    + intros [= <- <-] _. repeat (split; [reflexivity|]). exists h, t, None. split; [reflexivity|]. split; [reflexivity|]. left. repeat (split; [assumption||reflexivity|]). left. auto.
Qed.

Lemma compute_results_spec (s s1 : st) (r : res unit) : compute_results s = (s1, r) ->
  s1 = set_report s (s_report s1) /\
  match r with
  | Ok _ => exists Y i x m, s_Y s = Some Y /\ argmin Y = Some i /\ nth_error (s_X s) i = Some x /\ py_min Y = Ok m /\
              s_report s1 = Some (best_value Y, x, m)
  | Raise _ => s1 = s
  end.
Proof.
  unfold compute_results. destruct (s_Y s) as [Y|] eqn:SY; [|intros [= <- <-]; split; [now destruct s|reflexivity]].
  destruct (argmin Y) as [i|] eqn:A; [|intros [= <- <-]; split; [now destruct s|reflexivity]].
  unfold get. destruct (nth_error (s_X s) i) as [x|] eqn:X; [|intros [= <- <-]; split; [now destruct s|reflexivity]].
  destruct (py_min Y) as [m|] eqn:PM; intros [= <- <-]; (split; [now destruct s|]); [|reflexivity].
  exists Y, i, x, m. auto.
Qed.

(** The structure of a run. *)
Lemma run_cases fuel (E : env) s mi mt eps ctx s' r o : e_obj E = Some o ->
  run_optimization fuel E s mi mt eps ctx = (s', r) ->
  exists s0 r0, initial_evaluation E o (set_ctx (set_params s None) ctx) = (s0, r0) /\
    ((r0 <> Some (Ok tt) /\ s' = s0 /\ r = r0) \/
     (r0 = Some (Ok tt) /\ exists n s1 s2 r1,
        steps E o (fst (stop_conditions mi mt)) (snd (stop_conditions mi mt)) eps (e_clock E (s_tick s0)) n (started E s0) s1 /\
        (n < fuel /\ iter E o (fst (stop_conditions mi mt)) (snd (stop_conditions mi mt)) eps (e_clock E (s_tick s0)) s1 = (s2, Some r1) \/
         n = fuel /\ s2 = s1 /\ r1 = None) /\
        ((r1 <> Some (Ok tt) /\ s' = s2 /\ r = r1) \/
         (r1 = Some (Ok tt) /\ exists q, compute_results s2 = (s', q) /\ r = Some q)))).
Proof.
  intros O. unfold run_optimization. rewrite O.
  destruct (initial_evaluation E o (set_ctx (set_params s None) ctx)) as [s0 r0] eqn:I.
  intros H. exists s0, r0. split; [reflexivity|].
  destruct r0 as [[[]|e]|].
  2:{ injection H as <- <-. left. split; [discriminate|auto]. }
  2:{ injection H as <- <-. left. split; [discriminate|auto]. }
  right. split; [reflexivity|]. cbv zeta in H. fold (started E s0) in H.
  destruct (loop fuel E o _ _ eps _ _) as [s2 r1] eqn:L in H.
  apply loop_steps in L. destruct L as (n & s1 & ST & L). exists n, s1, s2, r1. split; [exact ST|]. split; [exact L|].
  destruct r1 as [[[]|e]|].
  - right. split; [reflexivity|]. destruct (compute_results s2) as [s3 q]. injection H as <- <-. eauto.
  - left. injection H as <- <-. split; [discriminate|auto].
  - left. injection H as <- <-. split; [discriminate|auto].
Qed.

(** What stays the same in the iteration that ends a loop normally. *)
Lemma iter_stop_ok (E : env) o mi mt eps z s s' : iter E o mi mt eps z s = (s', Some (Some (Ok tt))) ->
  s_X s' = s_X s /\ s_Y s' = s_Y s /\ s_hist s' = s_hist s /\ s_num s' = s_num s /\ s_cum s' = s_cum s /\ s_cost s' = s_cost s /\ s_tick s' = s_tick s.
Proof.
  intros H. apply iter_stop in H.
  destruct H as [(_ & -> & _)|[(e & UM & _ & _)|[(UM & _)|[(s1 & s2 & q & _ & _ & _ & _ & _ & _ & _ & _ & _ & _ & _ & _ & [(_ & H)|(e & H)])|(s1 & s2 & b & h & t & q & H)]]]];
    try discriminate; auto 10.
  - apply update_model_spec in UM. destruct UM as (m & p & U & -> & _). auto 10.
  - apply update_model_spec in UM. destruct UM as (m & p & U & -> & _). auto 10.
  - destruct H as (_ & _ & _ & _ & _ & _ & _ & _ & _ & _ & _ & _ & [(_ & H & _)|[(e & _ & H & _)|(ys & cs & e & _ & H & _)]]); discriminate.
Qed.

(** C30, C31: a run that returns normally. *)
Theorem run_data fuel (E : env) s mi mt eps ctx s' o : e_obj E = Some o ->
  run_optimization fuel E s mi mt eps ctx = (s', Some (Ok tt)) ->
  exists bs ys,
    s_X s' = s_X s ++ concat bs /\ s_Y s' = Some (values_so_far s ++ ys) /\ length bs = s_num s' /\
    length ys = length (pending_rows s ++ concat bs) /\
    (o_procs o = 1 -> s_hist s' = s_hist s ++ pending_rows s ++ concat bs /\
                      answers (o_fun o) (s_hist s) (pending_rows s ++ concat bs) ys) /\
    (stateless (o_fun o) -> 1 <= o_procs o -> values_at (o_fun o) (pending_rows s ++ concat bs) ys).
Proof.
  intros O H. apply (run_cases _ _ _ _ _ _ _ _ _ _ O) in H.
  destruct H as (s0 & r0 & I & [(N & _ & <-)|(-> & n & s1 & s2 & r1 & ST & IT & [(N & _ & <-)|(-> & q & CR & [= <-])])]); try now contradiction N.
  apply initial_ok in I. destruct I as (Y0 & SY0 & SX0 & _ & _ & _ & _ & _ & IM). cbn in SX0, IM.
  destruct (steps_traj _ _ _ _ _ _ _ _ _ Y0 ST SY0) as (bs & yss & T & _).
  destruct T as (L1 & L2 & TX & TY & TF & TA & TV & _ & _ & TN & _ & _).
  destruct IT as [(_ & IT)|(_ & _ & ?)]; [|discriminate].
  apply iter_stop_ok in IT. destruct IT as (EX & EY & EH & EN & _).
  apply compute_results_spec in CR. destruct CR as [CR _]. rewrite CR. sproj. rewrite EX, EY, EH, EN, TX, TY, TN.
  cbn [started] in *. sproj in *. unfold started in *. sproj in *. rewrite SX0.
  assert (LF : length (concat yss) = length (concat bs)).
  { clear -TF. induction TF; simpl; [reflexivity|]. rewrite !app_length. lia. }
  unfold pending_rows, values_so_far. destruct (s_Y s) as [Y|].
  - destruct IM as [-> ->]. exists bs, (concat yss). sproj in *. cbn [app].
    split; [reflexivity|]. split; [reflexivity|]. split; [exact L1|]. split; [exact LF|]. split; assumption.
  - destruct IM as (LY & IA & IV & _). exists bs, (Y0 ++ concat yss). cbn [app].
    split; [reflexivity|]. split; [reflexivity|]. split; [exact L1|]. split; [rewrite !app_length; unfold mat, vec in *; lia|]. split.
    + intros P. destruct (TA P) as [A B]. destruct (IA P) as [C D]. rewrite A, C in *. split; [now rewrite <- app_assoc|].
      now apply answers_app.
    + intros S1 N1. apply values_at_app; auto.
Qed.

End Main.
