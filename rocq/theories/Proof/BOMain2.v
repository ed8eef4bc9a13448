(** Histories, stop reasons, reported optimum, failures and the schedule of model updates. *)
From Coq Require Import String List ZArith QArith Qcanon Bool Lia.
From Verif.Model Require Import Py Space Design Optim Objective BO.
From Verif.Spec Require Import BOSpec.
From Verif.Proof Require Import Num BOP BOLoop BOMain.
Import ListNotations.
Local Open Scope nat_scope.

Section Main.
Context {M : Type}.
Notation env := (env M).
Notation st := (st M).

(** ---------------------------------------------------------------- suggest_next_locations *)
Lemma due_0 i : due i 0 = true. Proof. unfold due. change (Z.of_nat 0) with 0%Z. now rewrite Zmod_0_l. Qed.

Theorem suggest_frame (E : env) s ctx p i s' r : suggest_next_locations E s ctx p i = (s', r) ->
  s_X s' = s_X s /\ s_Y s' = s_Y s /\ s_hist s' = s_hist s /\ s_tick s' = s_tick s /\ s_cost s' = s_cost s /\
  s_report s' = s_report s /\ s_num s' = 0 /\ s_ctx s' = ctx /\
  exists U, s_updates s' = s_updates s ++ U /\
    (forall b, r = Some (Ok b) -> exists Y Xm Ym, s_Y s = Some Y /\ U = [(0, Xm, Ym)] /\ training_data E (s_X s) Y Xm Ym /\
        exists m v, e_params E m = Some v /\ s_params s' = Some [v] /\ m = fst (e_update E (s_model s) Xm Ym)).
Proof.
  unfold suggest_next_locations. cbv zeta.
  destruct (update_model E _) as [s1 r1] eqn:UM. apply update_model_spec in UM.
  destruct UM as (m & pp & U & -> & HU & HO). intros H.
  assert (K : exists m2, s' = set_model (with_model (set_ctx (set_num (set_params s None) 0) ctx) m pp U) m2 /\ (forall b, r = Some (Ok b) -> r1 = Ok tt)).
  { destruct r1 as [[]|e].
    - apply cne_spec in H. destruct H as (m2 & ->). eauto.
    - injection H as <- <-. exists m. split; [reflexivity|discriminate]. }
  destruct K as (m2 & -> & K). sproj. do 8 (split; [reflexivity|]). exists U. split; [reflexivity|].
  intros b Hb. rewrite (K b Hb) in HO. destruct HO as (NI & HP & HD). sproj in *.
  destruct HU as [[-> _]|(Xm & Ym & Y & -> & _ & _ & SY & TD & EM)].
  - specialize (HD eq_refl). now rewrite due_0 in HD.
  - exists Y, Xm, Ym. split; [exact SY|]. split; [reflexivity|]. split; [exact TD|]. destruct HP as (v & PV & HP). exists m, v. split; [exact PV|]. split; [exact HP|exact EM].
Qed.

(** ---------------------------------------------------------------- histories *)
Lemma step_data (E : env) s op s' o : e_obj E = Some o -> step E s op = (s', Some (Ok tt)) ->
  exists new ys, s_X s' = s_X s ++ new /\ s_Y s' = Some (values_so_far s ++ ys) /\
    length ys = length (pending_rows s ++ new) /\
    (o_procs o = 1 -> s_hist s' = s_hist s ++ pending_rows s ++ new /\ answers (o_fun o) (s_hist s) (pending_rows s ++ new) ys) /\
    (stateless (o_fun o) -> 1 <= o_procs o -> values_at (o_fun o) (pending_rows s ++ new) ys).
Proof.
  intros O. destruct op as [fuel mi mt eps ctx|ctx p i]; cbn [step].
  - intros H. destruct (run_data _ _ _ _ _ _ _ _ _ O H) as (bs & ys & A & B & _ & C & D & F). exists (concat bs), ys. auto 10.
  - destruct (suggest_next_locations E s ctx p i) as [s1 r] eqn:S. intros H. injection H as -> R.
    destruct (suggest_frame _ _ _ _ _ _ _ S) as (A & B & C & _ & _ & _ & _ & _ & U & _ & F).
    destruct r as [[b|e]|]; try discriminate. destruct (F b eq_refl) as (Y & Xm & Ym & SY & _).
    exists [], []. unfold values_so_far, pending_rows. rewrite B, SY, A, C, !app_nil_r. cbn [app].
    do 3 (split; [reflexivity|]). split; [intros _; split; [reflexivity|apply answers_nil]|]. intros; constructor.
Qed.

Theorem history_data (E : env) o : e_obj E = Some o -> forall ops s s', history E s ops s' -> ops <> [] ->
  exists new ys, s_X s' = s_X s ++ new /\ s_Y s' = Some (values_so_far s ++ ys) /\
    length ys = length (pending_rows s ++ new) /\
    (o_procs o = 1 -> s_hist s' = s_hist s ++ pending_rows s ++ new /\ answers (o_fun o) (s_hist s) (pending_rows s ++ new) ys) /\
    (stateless (o_fun o) -> 1 <= o_procs o -> values_at (o_fun o) (pending_rows s ++ new) ys).
Proof.
  intros O. induction ops as [|op ops IH]; intros s s' H NE; [now contradiction NE|].
  destruct H as (s1 & S & H). destruct (step_data _ _ _ _ _ O S) as (n1 & y1 & X1 & Y1 & L1 & A1 & V1).
  destruct ops as [|op2 ops]; [cbn in H; subst s1; exists n1, y1; auto 10|].
  destruct (IH s1 s' H ltac:(discriminate)) as (n2 & y2 & X2 & Y2 & L2 & A2 & V2).
  assert (PR1 : pending_rows s1 = []) by (unfold pending_rows; now rewrite Y1).
  assert (VS1 : values_so_far s1 = values_so_far s ++ y1) by (unfold values_so_far at 1; now rewrite Y1).
  rewrite VS1 in Y2. rewrite PR1 in L2, A2, V2. cbn [app] in L2, A2, V2.
  exists (n1 ++ n2), (y1 ++ y2).
  assert (EQ : pending_rows s ++ n1 ++ n2 = (pending_rows s ++ n1) ++ n2) by apply app_assoc.
  rewrite EQ.
  split; [now rewrite X2, X1, app_assoc|]. split; [now rewrite Y2, app_assoc|].
  split; [rewrite (app_length y1), (app_length (pending_rows s ++ n1)); unfold mat, vec in *; lia|]. split.
  - intros P. destruct (A1 P) as [B1 C1]. destruct (A2 P) as [B2 C2]. rewrite B2, B1 in *. split; [now rewrite !app_assoc|].
    now apply answers_app.
  - intros S1 N1. apply values_at_app; auto.
Qed.

(** ---------------------------------------------------------------- stopping *)
Lemma limit_iter mi mt q : fst (stop_conditions mi mt) = Some q <-> iteration_limit mi mt q.
Proof.
  unfold iteration_limit. destruct mi, mt; cbn; split; intros H; try discriminate; try (injection H as <-; auto); auto;
    try (destruct H as [H|(H & H1 & H2)]; try discriminate; try (injection H as ->); subst; auto).
Qed.
Lemma limit_time mi mt t : snd (stop_conditions mi mt) = Some t <-> time_limit mt t.
Proof. unfold time_limit. destruct mi, mt; cbn; split; intros H; try discriminate; try (injection H as ->); auto. Qed.

Lemma steps_num (E : env) o mi mt eps z : forall n s s1, steps E o mi mt eps z n s s1 ->
  s_num s1 = s_num s + n /\ s_tick s + n <= s_tick s1 /\
  (forall q, mi = Some q -> forall j, j < n -> (nat2q (s_num s + j) < q)%Qc) /\
  (n = 0 /\ s1 = s \/ exists k, 0 < n /\ s_cum s1 = (e_clock E k - z)%Qc /\ s_tick s + n <= S k /\ s_tick s1 = S k).
Proof.
  induction n as [|n IH]; intros s s1 H.
  - inversion H; subst. repeat split; auto; try lia.
  - apply steps_snoc in H. destruct H as (s2 & H & I). destruct (IH _ _ H) as (N & T & Q & C).
    apply iter_go in I. destruct I as (m & p & U & s3 & b & ys & cs & h & t & c & TL & UM & -> & ID & CL & EV & UC & m2 & CN & ->).
    sproj. assert (TT : s_tick s2 <= t).
    { clear -EV. unfold evaluate in EV.
      assert (G : forall h' t' r, eval_func (o_fun o) (e_clock E) (s_hist s2) (s_tick s2) b = (h', t', Ok r) -> s_tick s2 <= t').
      { intros h' t' [y c] F. apply eval_func_ok in F. destruct F as (_ & _ & -> & _). lia. }
      destruct (Nat.eqb (o_procs o) 1).
      - destruct (eval_func _ _ _ _ _) as [[h' t'] r] eqn:F. injection EV as -> -> ->. eapply G; eauto.
      - destruct (parallel_evaluation _ _ _ _ _) as [[r|e]|]; [injection EV as _ -> _; lia| |discriminate].
        destruct (eval_func _ _ _ _ _) as [[h' t'] r] eqn:F. injection EV as -> -> ->. eapply G; eauto. }
    split; [lia|]. split; [lia|]. split.
    + intros q MI j J. destruct (Nat.eq_dec j n) as [->|NE]; [|apply (Q q MI); lia].
      rewrite <- N. unfold iters_done in ID. rewrite MI in ID. now apply qcle_false in ID.
    + right. exists t. repeat split; lia.
Qed.

Lemma close_spec eps X : last_two_close eps X = true -> exists pre a b, X = pre ++ [b; a] /\ within_eps eps a b.
Proof.
  unfold last_two_close. destruct (rev X) as [|a [|b l]] eqn:R; try discriminate. intros H.
  apply andb_true_iff in H. destruct H as [H1 H2]. apply qcle_spec in H1, H2.
  exists (rev l), a, b. split.
  - rewrite <- (rev_involutive X), R. cbn [rev]. now rewrite <- app_assoc.
  - split; assumption.
Qed.

Theorem run_stops fuel (E : env) s mi mt eps ctx s' o : e_obj E = Some o ->
  run_optimization fuel E s mi mt eps ctx = (s', Some (Ok tt)) ->
  (forall q k, iteration_limit mi mt q -> k < s_num s' -> (nat2q k < q)%Qc) /\
  ((exists q, iteration_limit mi mt q /\ (q <= nat2q (s_num s'))%Qc) \/
   (exists t, time_limit mt t /\ (t <= s_cum s')%Qc) \/
   (exists pre a b, s_X s' = pre ++ [b; a] /\ within_eps eps a b) \/
   (exists m Xm Ym U, s_updates s' = U ++ [(s_num s', Xm, Ym)] /\ snd (e_update E m Xm Ym) = Some LinAlgError)) /\
  (s_num s' = 0 /\ s_cum s' = q0 \/ exists j k, j < k /\ s_cum s' = (e_clock E k - e_clock E j)%Qc).
Proof.
  intros O H. apply (run_cases _ _ _ _ _ _ _ _ _ _ O) in H.
  destruct H as (s0 & r0 & I & [(N & _ & <-)|(-> & n & s1 & s2 & r1 & ST & IT & [(N & _ & <-)|(-> & q & CR & [= <-])])]); try now contradiction N.
  destruct IT as [(_ & IT)|(_ & _ & ?)]; [|discriminate].
  pose proof (iter_stop_ok _ _ _ _ _ _ _ _ IT) as (EX & EY & EH & EN & EC & _).
  apply compute_results_spec in CR. destruct CR as [CR _]. rewrite CR. sproj.
  destruct (steps_num _ _ _ _ _ _ _ _ _ ST) as (N & T & Q & C). unfold started in *. sproj in *. cbn [plus] in *.
  split; [|split].
  - intros q k L K. apply (Q q); [now apply limit_iter|lia].
  - apply iter_stop in IT.
    destruct IT as [(TL & -> & _)|[(e & UM & _ & R)|[(UM & _ & _ & [ID|[L CL]])|[(s3 & s4 & q & _ & _ & _ & _ & _ & _ & _ & _ & _ & _ & _ & _ & [(_ & H)|(e & H)])|(s3 & s4 & b & h & t & q & H)]]]];
      try discriminate.
    + right; left. unfold time_left in TL. destruct (snd (stop_conditions mi mt)) as [t|] eqn:SC; [|discriminate].
      exists t. split; [now apply (limit_time mi)|]. now apply qclt_false in TL.
    + right; right; right. destruct e; try discriminate. apply update_model_spec in UM.
      destruct UM as (m & p & U & -> & _ & (_ & _ & _ & Xm & Ym & -> & SU)). sproj. exists (s_model s1), Xm, Ym, (s_updates s1). auto.
    + left. unfold iters_done in ID. destruct (fst (stop_conditions mi mt)) as [q|] eqn:SC; [|discriminate].
      exists q. split; [now apply limit_iter|]. rewrite EN. now apply qcle_spec in ID.
    + right; right; left. apply close_spec in CL. now rewrite EX.
    + destruct H as (_ & _ & _ & _ & _ & _ & _ & _ & _ & _ & _ & _ & [(_ & H & _)|[(e & _ & H & _)|(ys & cs & e & _ & H & _)]]); discriminate.
  - rewrite EN, EC. destruct C as [[-> ->]|(k & C0 & C1 & C2 & C3)]; [left; auto|]. right. exists (s_tick s0), k. split; [lia|exact C1].
Qed.

Lemma mapM_not_raise {A B} (f : A -> res B) l : (forall a, In a l -> exists b, f a = Ok b) -> exists bs, mapM f l = Ok bs.
Proof.
  induction l as [|a l IH]; intros H; simpl; [eauto|]. destruct (H a (or_introl eq_refl)) as (b & ->). cbn [bind].
  destruct IH as (bs & ->); [intros; apply H; now right|]. cbn. eauto.
Qed.
Lemma evaluate_returns (E : env) o h t x : parts_return E o -> snd (evaluate o (e_clock E) h t x) <> None.
Proof.
  intros [_ P]. unfold evaluate. destruct (Nat.eqb_spec (o_procs o) 1) as [Q|Q].
  - destruct (eval_func _ _ _ _ _) as [[h1 t1] r]. discriminate.
  - destruct P as [P|P]; [contradiction|]. unfold parallel_evaluation.
    destruct (negb (o_fork o) && (0 <? o_procs o)).
    + destruct (eval_func _ _ _ _ _) as [[h1 t1] r]. discriminate.
    + destruct (mapM_not_raise (child (o_fun o) (e_clock E) h t) (divided_samples (o_procs o) x)) as (bs & ->); [|discriminate].
      intros a _. unfold child. destruct (eval_rows _ _ _ _ _) as [[h1 t1] [l|e]] eqn:R; [eauto|].
      apply eval_rows_spec in R. destruct R as (pre & y & post & ys & _ & _ & _ & F). destruct (P (h ++ pre) y) as (v & Hv). congruence.
Qed.
Lemma iter_returns (E : env) o mi mt eps z s s' r : parts_return E o -> iter E o mi mt eps z s = (s', Some r) -> r <> None.
Proof.
  intros P I. apply iter_stop in I.
  destruct I as [(_ & _ & ->)|[(e & _ & _ & ->)|[(_ & _ & -> & _)|[(s1 & s2 & q & _ & _ & CN & H)|(s1 & s2 & b & h & t & q & _ & _ & _ & EV & H)]]]].
  - discriminate.
  - destruct e; discriminate.
  - discriminate.
  - destruct H as (_ & _ & _ & _ & _ & _ & _ & _ & _ & [(-> & ->)|(e & ->)]); [|discriminate].
    unfold compute_next_evaluations in CN. destruct (context_manager _ _); [|discriminate].
    destruct P as [P _]. specialize (P (s_model s1) (if e_dedup E then Some (duplicate_manager (e_space E) (s_X s1) None None) else None) a).
    destruct (e_batch E _ _ _) as [m [[b|e]|]]; [discriminate|discriminate|now contradiction P].
  - destruct H as (_ & _ & _ & _ & _ & _ & _ & _ & [(-> & -> & _)|[(e & _ & -> & _)|(ys & cs & e & _ & -> & _)]]); try discriminate.
    pose proof (evaluate_returns E o (s_hist s) (s_tick s) b P) as R. rewrite EV in R. intros _. now apply R.
Qed.
Lemma initial_returns (E : env) o s s0 r : parts_return E o -> initial_evaluation E o s = (s0, r) -> r <> None.
Proof.
  intros P I ->. pose proof (initial_fail _ _ _ _ _ I ltac:(discriminate)) as (_ & _ & _ & _ & _ & _ & _ & h & t & q & EV & _ & [(_ & _ & [(-> & _)|(e & -> & ?)])|(ys & cs & e & _ & _ & ?)]); try discriminate.
  pose proof (evaluate_returns E o (s_hist s) (s_tick s) (s_X s) P) as R. rewrite EV in R. now apply R.
Qed.

Theorem run_terminates_iter fuel (E : env) s mi mt eps ctx o q N : e_obj E = Some o -> parts_return E o ->
  iteration_limit mi mt q -> (q <= nat2q N)%Qc -> N < fuel ->
  snd (run_optimization fuel E s mi mt eps ctx) <> None.
Proof.
  intros O P L QN F. destruct (run_optimization fuel E s mi mt eps ctx) as [s' r] eqn:H. cbn [snd].
  apply (run_cases _ _ _ _ _ _ _ _ _ _ O) in H.
  destruct H as (s0 & r0 & I & [(_ & _ & ->)|(-> & n & s1 & s2 & r1 & ST & IT & R)]).
  { eapply initial_returns; eauto. }
  destruct (steps_num _ _ _ _ _ _ _ _ _ ST) as (_ & _ & Q & _). apply limit_iter in L.
  assert (n <= N).
  { destruct (Nat.le_gt_cases n N) as [?|G]; [assumption|]. specialize (Q q L N G). unfold started in Q. sproj in *. cbn [plus] in Q.
    exfalso. exact (Qclt_not_le _ _ Q QN). }
  destruct IT as [(_ & IT)|(-> & _)]; [|lia]. apply iter_returns in IT; [|exact P].
  destruct R as [(_ & _ & ->)|(_ & x & _ & ->)]; [exact IT|discriminate].
Qed.

Theorem run_terminates_time (E : env) s mi mt eps ctx o t : e_obj E = Some o -> parts_return E o ->
  time_limit mt t -> (forall j, exists K, forall k, K <= k -> (t <= e_clock E k - e_clock E j)%Qc) ->
  exists F, forall fuel, F <= fuel -> snd (run_optimization fuel E s mi mt eps ctx) <> None.
Proof.
  intros O P L CK.
  destruct (initial_evaluation E o (set_ctx (set_params s None) ctx)) as [s0 r0] eqn:I.
  destruct (CK (s_tick s0)) as (K & HK). exists (K + 3). intros fuel F.
  destruct (run_optimization fuel E s mi mt eps ctx) as [s' r] eqn:H. cbn [snd].
  apply (run_cases _ _ _ _ _ _ _ _ _ _ O) in H.
  destruct H as (s0' & r0' & I' & H). rewrite I in I'. injection I' as <- <-.
  destruct H as [(_ & _ & ->)|(-> & n & s1 & s2 & r1 & ST & IT & R)].
  { eapply initial_returns; eauto. }
  assert (n <= K + 1).
  { destruct (Nat.le_gt_cases n (K + 1)) as [?|G]; [assumption|]. exfalso.
    destruct n as [|n]; [lia|]. apply steps_snoc in ST. destruct ST as (s3 & ST & GO).
    apply iter_go in GO. destruct GO as (m & p & U & s4 & b & ys & cs & h & tt0 & c & TL & _).
    apply steps_num in ST. destruct ST as (_ & _ & _ & [[? _]|(k & C0 & C1 & C2 & C3)]); [lia|].
    unfold time_left in TL. apply (limit_time mi) in L. rewrite L in TL. apply qclt_spec in TL. rewrite C1 in TL.
    unfold started in C2. sproj in *. exact (Qclt_not_le _ _ TL (HK k ltac:(lia))). }
  destruct IT as [(_ & IT)|(-> & _)]; [|lia]. apply iter_returns in IT; [|exact P].
  destruct R as [(_ & _ & ->)|(_ & x & _ & ->)]; [exact IT|discriminate].
Qed.

(** ---------------------------------------------------------------- the reported optimum *)
Lemma lmin_is_min a l : is_min (lmin a l) (a :: l).
Proof.
  destruct (lmin_le a l) as (A & B & C). split.
  - destruct C as [->|C]; [now left|now right].
  - intros y [<-|I]; auto.
Qed.
Lemma py_min_spec Y m : py_min Y = Ok m -> is_min m Y.
Proof. destruct Y as [|a Y]; [discriminate|]. intros [= <-]. apply lmin_is_min. Qed.
Lemma is_min_unique m m' l : is_min m l -> is_min m' l -> m = m'.
Proof. intros [A B] [C D]. apply Qcle_antisym; auto. Qed.
Lemma argmin_first_min Y i : argmin Y = Some i -> first_min i Y.
Proof.
  intros A. apply argmin_spec in A. destruct A as (m & Hm & Hle & Hlt). exists m. split; [exact Hm|]. split.
  - split; [eapply nth_error_In; eauto|]. intros y I. apply In_nth_error in I. destruct I as [j J]. eauto.
  - intros j y J Hj. eauto.
Qed.
Lemma best_value_nth Y i b : nth_error (best_value Y) i = Some b -> i < length Y /\ is_min b (firstn (S i) Y).
Proof.
  unfold best_value. rewrite nth_error_map. destruct (nth_error (seq 0 (length Y)) i) as [j|] eqn:J; [|discriminate].
  assert (L : i < length Y) by (rewrite <- (seq_length (length Y) 0); apply nth_error_Some; congruence).
  rewrite (nth_error_nth' _ 0) in J by (now rewrite seq_length). rewrite seq_nth in J by exact L. injection J as <-. cbn [plus].
  cbn [option_map]. intros K. assert (b = match firstn (S i) Y with [] => q0 | a :: t => lmin a t end) as -> by congruence. split; [exact L|].
  remember (firstn (S i) Y) as W eqn:F. destruct W as [|a l]; [destruct Y; [cbn in L; lia|discriminate]|]. apply lmin_is_min.
Qed.
Lemma best_value_length Y : length (best_value Y) = length Y.
Proof. unfold best_value. now rewrite map_length, seq_length. Qed.

Theorem run_reports fuel (E : env) s mi mt eps ctx s' o : e_obj E = Some o ->
  run_optimization fuel E s mi mt eps ctx = (s', Some (Ok tt)) ->
  exists Y yb x m i, s_Y s' = Some Y /\ s_report s' = Some (yb, x, m) /\
    is_min m Y /\ first_min i Y /\ nth_error Y i = Some m /\ nth_error (s_X s') i = Some x /\
    length yb = length Y /\
    (forall j b, nth_error yb j = Some b -> is_min b (firstn (S j) Y)) /\
    (forall j k b c, j <= k -> nth_error yb j = Some b -> nth_error yb k = Some c -> (c <= b)%Qc) /\
    nth_error yb (length Y - 1) = Some m.
Proof.
  intros O H. apply (run_cases _ _ _ _ _ _ _ _ _ _ O) in H.
  destruct H as (s0 & r0 & I & [(N & _ & <-)|(-> & n & s1 & s2 & r1 & ST & IT & [(N & _ & <-)|(-> & q & CR & [= <-])])]); try now contradiction N.
  apply compute_results_spec in CR. destruct CR as [CR (Y & i & x & m & SY & AM & NX & PM & RP)].
  exists Y, (best_value Y), x, m, i. rewrite CR, RP. sproj.
  pose proof (py_min_spec _ _ PM) as MIN. pose proof (argmin_first_min _ _ AM) as FM.
  destruct FM as (m' & NM & MIN' & FM). assert (m' = m) by (eapply is_min_unique; eauto). subst m'.
  split; [exact SY|]. split; [reflexivity|]. split; [exact MIN|]. split; [exists m; auto|]. split; [exact NM|]. split; [exact NX|].
  split; [apply best_value_length|]. split; [intros j b J; now apply best_value_nth in J|]. split.
  - intros j k b c JK J K. apply best_value_nth in J, K. destruct J as [_ [J1 J2]], K as [K1 [K2 K3]].
    apply K3. replace (S k) with (S j + (k - j)) by lia. rewrite <- (firstn_skipn (S j) (firstn (S j + (k - j)) Y)).
    apply in_or_app. left. rewrite firstn_firstn. rewrite Nat.min_l by lia. exact J1.
  - assert (L : 0 < length Y) by (destruct Y; [discriminate|cbn; lia]).
    destruct (nth_error (best_value Y) (length Y - 1)) as [b|] eqn:B.
    + f_equal. apply best_value_nth in B. destruct B as [_ B]. rewrite firstn_all2 in B by lia. eapply is_min_unique; eauto.
    + apply nth_error_None in B. rewrite best_value_length in B. lia.
Qed.

(** ---------------------------------------------------------------- any outcome, failures *)
Theorem run_any_outcome fuel (E : env) s mi mt eps ctx s' r o Y : e_obj E = Some o -> o_procs o = 1 -> s_Y s = Some Y ->
  run_optimization fuel E s mi mt eps ctx = (s', r) ->
  exists new ys b calls, s_X s' = s_X s ++ new ++ b /\ s_Y s' = Some (Y ++ ys) /\ length ys = length new /\
    answers (o_fun o) (s_hist s) new ys /\ s_hist s' = s_hist s ++ new ++ calls /\
    (b = [] /\ calls = [] \/ b = s_sugg s' /\
       exists pre post vs, b = pre ++ post /\ answers (o_fun o) (s_hist s ++ new) pre vs /\
         (calls = b /\ post = [] \/
          exists x rest e, post = x :: rest /\ calls = pre ++ [x] /\ o_fun o (s_hist s ++ new ++ pre) x = Raise e /\ r = Some (Raise e))).
Proof.
  intros O P SY H. apply (run_cases _ _ _ _ _ _ _ _ _ _ O) in H. destruct H as (s0 & r0 & I & H).
  unfold initial_evaluation in I. sproj in *. rewrite SY in I. injection I as <- <-.
  destruct H as [(N & _)|(_ & n & s1 & s2 & r1 & ST & IT & R)]; [now contradiction N|].
  assert (SY1 : s_Y (started E (set_ctx (set_params s None) ctx)) = Some Y) by exact SY.
  destruct (steps_traj _ _ _ _ _ _ _ _ _ Y ST SY1) as (bs & yss & T & _).
  destruct T as (L1 & L2 & TX & TY & TF & TA & _). destruct (TA P) as [TH TAns].
  change (s_X (started E (set_ctx (set_params s None) ctx))) with (s_X s) in TX.
  change (s_hist (started E (set_ctx (set_params s None) ctx))) with (s_hist s) in TH, TAns.
  assert (LF : length (concat yss) = length (concat bs)) by apply TAns.
  assert (FX : s_X s' = s_X s2 /\ s_Y s' = s_Y s2 /\ s_hist s' = s_hist s2 /\ s_sugg s' = s_sugg s2).
  { destruct R as [(_ & -> & _)|(_ & q & CR & _)]; [auto|]. apply compute_results_spec in CR. destruct CR as [CR _]. rewrite CR. auto. }
  destruct FX as (-> & -> & -> & ->).
  assert (Q : (s_X s2 = s_X s1 /\ s_Y s2 = s_Y s1 /\ s_hist s2 = s_hist s1) \/
    (exists b h t q, evaluate o (e_clock E) (s_hist s1) (s_tick s1) b = (h, t, q) /\ s_X s2 = s_X s1 ++ b /\ s_Y s2 = s_Y s1 /\ s_hist s2 = h /\ s_sugg s2 = b /\
       ((exists ys cs, q = Some (Ok (ys, cs))) \/ exists e, q = Some (Raise e) /\ r = Some (Raise e)))).
  { destruct IT as [(_ & IT)|(_ & -> & _)]; [|auto].
    apply iter_stop in IT.
    destruct IT as [(_ & -> & _)|[(e & UM & _)|[(UM & _)|[(s3 & s4 & q & _ & _ & _ & A & B & _ & _ & C & _)|(s3 & s4 & b & h & t & q & _ & _ & _ & EV & A & B & C & D & _ & _ & _ & _ & G)]]]]; auto.
    - apply update_model_spec in UM. destruct UM as (m & p & U & -> & _). auto.
    - apply update_model_spec in UM. destruct UM as (m & p & U & -> & _). auto.
    - right. exists b, h, t, q. do 5 (split; [assumption|]). destruct G as [(-> & -> & _)|[(e & -> & -> & _)|(ys & cs & e & -> & _)]].
      + rewrite evaluate_seq in EV by exact P. destruct (eval_func _ _ _ _ _) as [[? ?] ?]. discriminate.
      + right. exists e. split; [reflexivity|]. destruct R as [(_ & _ & ->)|(? & _)]; [reflexivity|discriminate].
      + left. eauto. }
  exists (concat bs), (concat yss). destruct Q as [(-> & -> & ->)|(b & h & t & q & EV & -> & -> & -> & -> & G)].
  - exists [], []. rewrite !app_nil_r. repeat (split; [assumption|]). left. auto.
  - destruct G as [(ys & cs & ->)|(e & -> & ->)].
    + apply (evaluate_seq_ok _ _ _ _ _ _ _ _ _ P) in EV. destruct EV as [-> A]. exists b, b.
      rewrite TX, TH, !app_assoc in *. repeat (split; [auto|]). right. split; [reflexivity|].
      exists b, [], ys. rewrite app_nil_r. split; [reflexivity|]. split; [assumption|]. left. auto.
    + apply (evaluate_seq_raise _ _ _ _ _ _ _ _ P) in EV. destruct EV as (pre & a & post & ys & -> & -> & A & F).
      exists (pre ++ a :: post), (pre ++ [a]). rewrite TX, TH, !app_assoc in *. repeat (split; [auto|]). right. split; [reflexivity|].
      exists pre, (a :: post), ys. split; [reflexivity|]. split; [assumption|]. right. exists a, post, e. rewrite app_assoc. auto.
Qed.

(** An exception of the objective during the loop. *)
Theorem objective_raises fuel (E : env) s mi mt eps ctx s' e o Y h x e' : e_obj E = Some o -> o_procs o = 1 -> s_Y s = Some Y ->
  aligned (s_X s) Y ->
  run_optimization fuel E s mi mt eps ctx = (s', Some (Raise e)) ->
  s_hist s' = h ++ [x] -> length (s_hist s) <= length h -> o_fun o h x = Raise e' ->
  e' = e /\
  exists new ys b, s_X s' = s_X s ++ new ++ b /\ s_Y s' = Some (Y ++ ys) /\ length ys = length new /\
    answers (o_fun o) (s_hist s) new ys /\ b = s_sugg s' /\ In x b /\ length (s_X s') = length (Y ++ ys) + length b.
Proof.
  intros O P SY AL H HH LH F.
  destruct (run_any_outcome _ _ _ _ _ _ _ _ _ _ _ O P SY H) as (new & ys & b & calls & X' & Y' & L & A & HI & D).
  assert (EXT : exists l, h = s_hist s ++ l /\ l ++ [x] = new ++ calls).
  { exists (skipn (length (s_hist s)) h). rewrite HI in HH.
    assert (FH : firstn (length (s_hist s)) h = s_hist s).
    { apply (f_equal (firstn (length (s_hist s)))) in HH. rewrite !firstn_app, Nat.sub_diag in HH. cbn [firstn] in HH.
      rewrite firstn_all, app_nil_r in HH. rewrite (proj2 (Nat.sub_0_le _ _) LH) in HH. cbn [firstn] in HH. rewrite app_nil_r in HH. now symmetry. }
    assert (HS : s_hist s ++ skipn (length (s_hist s)) h = h) by (rewrite <- FH at 1; apply firstn_skipn).
    split; [now symmetry|]. rewrite <- HS, <- app_assoc in HH. apply app_inv_head in HH. now symmetry. }
  destruct EXT as (l & HL & LE).
  (* a call answered normally cannot be the last one *)
  assert (NO : forall rows vs, answers (o_fun o) (s_hist s) rows vs -> l ++ [x] = rows -> False).
  { intros rows vs [LA AN] EQ. destruct (AN (length l) x) as (y & _ & Fy).
    - rewrite <- EQ, nth_error_app2, Nat.sub_diag by lia. reflexivity.
    - rewrite <- EQ, firstn_app, Nat.sub_diag, firstn_all in Fy. cbn [firstn] in Fy. rewrite app_nil_r, <- HL in Fy. congruence. }
  destruct D as [[-> ->]|(EB & pre & post & vs & BP & AP & [(-> & ->)|(a & rest & e0 & -> & -> & FE & [= <-])])].
  - rewrite app_nil_r in LE. destruct (NO _ _ A LE).
  - exfalso. rewrite app_nil_r in BP. subst pre. apply (NO (new ++ b) (ys ++ vs)); [|exact LE]. apply answers_app; assumption.
  - rewrite app_assoc in LE. apply app_inj_tail in LE. destruct LE as [-> ->].
    rewrite HL in F. split; [congruence|]. exists new, ys, b. split; [exact X'|]. split; [exact Y'|]. split; [exact L|]. split; [exact A|].
    split; [exact EB|]. split; [rewrite BP; apply in_or_app; right; now left|].
    rewrite X', !app_length. unfold aligned in AL. unfold mat, vec in *. lia.
Qed.

(** A mismatch between X and Y makes the object unusable for good. *)
Lemma unzip_length sp X Z : unzip_inputs sp X = Ok Z -> X <> [] -> length Z = length X.
Proof.
  unfold unzip_inputs. destruct (has_bandit sp).
  - intros [= <-] NE. destruct X; [now contradiction NE|reflexivity].
  - destruct (mapM (objective_to_model sp) X) as [W|e] eqn:R; cbn [bind]; [|discriminate]. intros [= <-] NE. apply mapM_length in R.
    rewrite <- R. destruct W; [destruct X; [now contradiction NE|discriminate]|reflexivity].
Qed.
Lemma mismatch_update (E : env) s Y : rejects_mismatch E -> s_Y s = Some Y -> s_X s <> [] -> length (s_X s) <> length Y ->
  s_num s = 0 ->
  exists s1 e, update_model E s = (s1, Raise e) /\ e <> LinAlgError /\ s_X s1 = s_X s /\ s_Y s1 = s_Y s /\ s_hist s1 = s_hist s.
Proof.
  intros [RM RN] SY NE LN SN. destruct (update_model E s) as [s1 r] eqn:UM.
  pose proof (update_model_spec _ _ _ _ UM) as (m & p & U & -> & HU & HO).
  assert (K : exists e, r = Raise e /\ e <> LinAlgError).
  { unfold update_model in UM. destruct (Z.eqb (e_interval E) 0); [injection UM as _ <-; exists ZeroDivisionError; split; [reflexivity|discriminate]|].
    pose proof (due_0 (e_interval E)) as D. unfold due in D. rewrite <- SN in D. rewrite D in UM.
    destruct (unzip_inputs (e_space E) (s_X s)) as [Xm|e] eqn:UZ; [|injection UM as _ <-; apply unzip_err in UZ; subst; eexists; split; [reflexivity|discriminate]].
    rewrite SY in UM. destruct (normalized (e_norm E) Y) as [Ym|e] eqn:NY.
    2:{ injection UM as _ <-. unfold normalized in NY. destruct (e_norm E), Y; try discriminate. injection NY as <-. eexists; split; [reflexivity|discriminate]. }
    assert (LX : length Xm <> length Ym).
    { apply unzip_length in UZ; [|exact NE]. assert (length Ym = length Y).
      { unfold normalized in NY. destruct (e_norm E) as [nf|] eqn:EN; [|congruence]. destruct Y; [discriminate|]. injection NY as <-. now apply RN. }
      unfold mat, vec in *. congruence. }
    specialize (RM (s_model (add_update s Xm Ym)) Xm Ym LX). cbv zeta in UM. destruct (e_update E (s_model (add_update s Xm Ym)) Xm Ym) as [m' [e|]]; [|discriminate].
    cbn in RM. injection RM as ->. assert (r = Raise ValueError) as -> by congruence. eexists; split; [reflexivity|discriminate]. }
  destruct K as (e & -> & NL). exists (with_model s m p U), e. auto.
Qed.
Lemma mismatch_step (E : env) s Y op : rejects_mismatch E -> s_Y s = Some Y -> s_X s <> [] -> length (s_X s) <> length Y ->
  consults_model op ->
  exists s' e, step E s op = (s', Some (Raise e)) /\ s_X s' = s_X s /\ s_Y s' = s_Y s /\ s_hist s' = s_hist s.
Proof.
  intros RM SY NE LN C. destruct op as [fuel mi mt eps ctx|ctx p i]; cbn [step].
  - destruct C as [FU TL]. unfold run_optimization. destruct (e_obj E) as [o|]; [|eexists; eexists; split; [reflexivity|auto]].
    unfold initial_evaluation. sproj. rewrite SY. cbv beta iota zeta.
    destruct fuel as [|fuel]; [lia|]. rewrite loop_iter.
    set (s1 := set_ynew _ _).
    assert (SY1 : s_Y s1 = Some Y) by exact SY.
    destruct (mismatch_update E s1 Y RM SY1 NE LN eq_refl) as (s2 & e & UM & NL & X2 & Y2 & H2).
    unfold iter. rewrite UM. change (s_cum s1) with q0.
    assert (TLT : time_left (snd (stop_conditions mi mt)) q0 = true).
    { unfold time_left. destruct (snd (stop_conditions mi mt)) as [t|] eqn:SC; [|reflexivity]. apply limit_time in SC.
      apply qclt_spec. apply TL. exact SC. }
    rewrite TLT. exists s2, e. destruct e; try (now contradiction NL); (split; [reflexivity|split; [exact X2|split; [exact (eq_trans Y2 SY1)|exact H2]]]).
  - unfold suggest_next_locations. cbv zeta. set (s1 := set_ctx _ _).
    assert (SY1 : s_Y s1 = Some Y) by exact SY.
    destruct (mismatch_update E s1 Y RM SY1 NE LN eq_refl) as (s2 & e & UM & NL & X2 & Y2 & H2). rewrite UM.
    exists s2, e. split; [reflexivity|split; [exact X2|split; [exact Y2|exact H2]]].
Qed.
Theorem mismatch_forever (E : env) : rejects_mismatch E -> forall ops s Y s', s_Y s = Some Y -> s_X s <> [] -> length (s_X s) <> length Y ->
  Forall consults_model ops -> history_caught E s ops s' ->
  s_X s' = s_X s /\ s_Y s' = s_Y s /\ s_hist s' = s_hist s /\ (ops <> [] -> ~ history E s ops s').
Proof.
  intros RM. induction ops as [|op ops IH]; intros s Y s' SY NE LN C H.
  - cbn in H. subst. split; [reflexivity|]. split; [reflexivity|]. split; [reflexivity|]. intros X; now contradiction X.
  - inversion C as [|? ? C1 C2]; subst. destruct H as (s1 & r & S & H).
    destruct (mismatch_step E s Y op RM SY NE LN C1) as (s2 & e & S2 & X2 & Y2 & H2). rewrite S in S2. injection S2 as <- ->.
    destruct (IH s1 Y s') as (A & B & D & _); auto; [congruence|congruence|unfold mat, vec in *; rewrite X2; exact LN|].
    split; [congruence|]. split; [congruence|]. split; [congruence|]. intros _ (s3 & S3 & _). rewrite S in S3. discriminate.
Qed.

(** ---------------------------------------------------------------- the schedule of updates *)
Theorem run_updates fuel (E : env) s mi mt eps ctx s' o : e_obj E = Some o ->
  run_optimization fuel E s mi mt eps ctx = (s', Some (Ok tt)) ->
  exists Y0 bs yss n U, length bs = s_num s' /\ length yss = s_num s' /\
    s_X s' = s_X s ++ concat bs /\ s_Y s' = Some (Y0 ++ concat yss) /\ (forall Y, s_Y s = Some Y -> Y0 = Y) /\
    s_updates s' = s_updates s ++ U /\ update_schedule E (s_X s) Y0 bs yss n U /\
    (n = s_num s' \/ n = S (s_num s')) /\
    (length (hist_rows (s_params s')) = n \/
     (n = S (s_num s') /\ length (hist_rows (s_params s')) = s_num s' /\ exists m Xm Ym, In (s_num s', Xm, Ym) U /\ snd (e_update E m Xm Ym) = Some LinAlgError)).
Proof.
  intros O H. apply (run_cases _ _ _ _ _ _ _ _ _ _ O) in H.
  destruct H as (s0 & r0 & I & [(N & _ & <-)|(-> & n & s1 & s2 & r1 & ST & IT & [(N & _ & <-)|(-> & q & CR & [= <-])])]); try now contradiction N.
  destruct IT as [(_ & IT)|(_ & _ & ?)]; [|discriminate].
  apply initial_ok in I. destruct I as (Y0 & SY0 & SX0 & SP0 & _ & SU0 & _ & _ & IM). sproj in *.
  assert (HY : forall Y, s_Y s = Some Y -> Y0 = Y) by (intros Y SY; rewrite SY in IM; tauto).
  clear IM.
  destruct (steps_traj _ _ _ _ _ _ _ _ _ Y0 ST SY0) as (bs & yss & T & HU). destruct (HU eq_refl) as (U & EU & SCH). clear HU.
  destruct T as (L1 & L2 & TX & TY & _ & _ & _ & _ & _ & TN & (P & TP & LP) & _).
  unfold started in *. sproj in *. rewrite SX0 in *. rewrite SP0 in TP. cbn [hist_rows app] in TP. cbn [plus] in TN.
  pose proof (iter_stop_ok _ _ _ _ _ _ _ _ IT) as (EX & EY & _ & EN & _).
  apply compute_results_spec in CR. destruct CR as [CR _].
  assert (FX : s_X s' = s_X s1 /\ s_Y s' = s_Y s1 /\ s_num s' = n /\ s_updates s' = s_updates s2 /\ s_params s' = s_params s2).
  { rewrite CR. sproj. rewrite EN. auto. }
  destruct FX as (-> & -> & -> & -> & ->).
  (* the extra update of the last iteration *)
  assert (EXTRA : forall m p U2, U2 = [] /\ m = s_model s1 \/
     (exists Xm Ym Y, U2 = [(s_num s1, Xm, Ym)] /\ due (e_interval E) (s_num s1) = true /\ e_interval E <> 0%Z /\ s_Y s1 = Some Y /\ training_data E (s_X s1) Y Xm Ym /\ m = fst (e_update E (s_model s1) Xm Ym)) ->
     (U2 = [] -> due (e_interval E) (s_num s1) = false) -> s_updates s2 = s_updates (with_model s1 m p U2) ->
     s_updates s2 = s_updates s ++ (U ++ U2) /\ update_schedule E (s_X s) Y0 bs yss (S n) (U ++ U2)).
  { intros m p U2 D DN ES. rewrite ES. sproj. rewrite EU, SU0, <- app_assoc. split; [reflexivity|]. destruct SCH as [S1 S2]. split.
    - rewrite map_app, S1, seq_S, filter_snoc. f_equal. cbn [plus]. rewrite <- TN.
      destruct D as [[-> _]|(Xm & Ym & Y & -> & D & _)]; [now rewrite (DN eq_refl)|now rewrite D].
    - intros i Xm Ym HI. apply in_app_or in HI. destruct HI as [HI|HI]; [now apply S2|].
      destruct D as [[-> _]|(Xm' & Ym' & Y & -> & D & _ & SY & TD & _)]; [destruct HI|].
      destruct HI as [[= <- <- <-]|[]]. rewrite TN, (firstn_all2 bs), (firstn_all2 yss) by lia. rewrite <- TX.
      rewrite TY in SY. injection SY as <-. exact TD. }
  apply iter_stop in IT.
  destruct IT as [(TL & -> & _)|[(e & UM & _ & R)|[(UM & _ & _ & _)|[(s3 & s4 & q & _ & _ & _ & _ & _ & _ & _ & _ & _ & _ & _ & _ & [(_ & H)|(e & H)])|(s3 & s4 & b & h & t & q & H)]]]]; try discriminate.
  - exists Y0, bs, yss, n, U. repeat (split; [first [assumption|congruence]|]). split; [auto|]. left. rewrite TP. exact LP.
  - destruct e; try discriminate. apply update_model_spec in UM. destruct UM as (m & p & U2 & -> & D & (NI & HP & DU & Xm & Ym & EU2 & SU)).
    destruct (EXTRA m p U2 D) as [A B]; [rewrite EU2; discriminate|reflexivity|].
    exists Y0, bs, yss, (S n), (U ++ U2). repeat (split; [first [assumption|congruence]|]). split; [auto|]. right. split; [reflexivity|].
    split; [sproj; rewrite HP, TP; exact LP|]. exists (s_model s1), Xm, Ym. split; [|exact SU]. rewrite EU2, TN. apply in_or_app. right. now left.
  - apply update_model_spec in UM. destruct UM as (m & p & U2 & -> & D & (NI & HP & DU)).
    destruct (EXTRA m p U2 D DU eq_refl) as [A B].
    exists Y0, bs, yss, (S n), (U ++ U2). repeat (split; [first [assumption|congruence]|]). split; [auto|]. left. sproj. destruct HP as (v & _ & ->). cbn [hist_rows]. rewrite app_length, TP, LP. cbn. lia.
  - destruct H as (_ & _ & _ & _ & _ & _ & _ & _ & _ & _ & _ & _ & [(_ & H & _)|[(e & _ & H & _)|(ys & cs & e & _ & H & _)]]); discriminate.
Qed.

End Main.
