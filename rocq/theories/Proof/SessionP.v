(** Splitting runs; evaluating the objective outside. *)
From Coq Require Import String List ZArith QArith Qcanon Bool Lia Permutation.
From Verif.Model Require Import Py Space Design Optim Objective BO Pipeline Session.
From Verif.Spec Require Import SpaceSpec DesignSpec ContextSpec SuggestSpec BOSpec PipelineSpec SessionSpec.
From Verif.Proof Require Import Num BOP BOLoop BOMain BOMain2 DesignMain SuggestMain PipelineP.
Import ListNotations.
Local Open Scope nat_scope.

(** ---- the clock does not change the values ---- *)
Lemma eval_rows_clock f clock : forall rows h t t2,
  let '(h1, _, r1) := eval_rows f clock h t rows in
  let '(h2, _, r2) := eval_rows f clock h t2 rows in
  h1 = h2 /\ match r1, r2 with Ok l1, Ok l2 => map fst l1 = map fst l2 | Raise e1, Raise e2 => e1 = e2 | _, _ => False end.
Proof.
  induction rows as [|x rows IH]; intros h t t2; cbn [eval_rows]; [auto|].
  destruct (f h x) as [y|e]; [|auto]. specialize (IH (h ++ [x]) (S (S t)) (S (S t2))).
  destruct (eval_rows f clock (h ++ [x]) (S (S t)) rows) as [[h1 t1'] [l1|e1]];
  destruct (eval_rows f clock (h ++ [x]) (S (S t2)) rows) as [[h2 t2'] [l2|e2]]; destruct IH as (A & B); subst; try contradiction; split; auto.
  cbn. now rewrite B.
Qed.
Lemma eval_func_clock f clock rows h t t2 h' t' ys cs : eval_func f clock h t rows = (h', t', Ok (ys, cs)) ->
  exists t'' cs', eval_func f clock h t2 rows = (h', t'', Ok (ys, cs')).
Proof.
  unfold eval_func. pose proof (eval_rows_clock f clock rows h t t2) as C.
  destruct (eval_rows f clock h t rows) as [[h1 t1] [l1|e1]]; [|discriminate].
  destruct (eval_rows f clock h t2 rows) as [[h2 t2'] [l2|e2]]; destruct C as (A & B); [|contradiction].
  intros [= <- <- <- <-]. subst. rewrite B. eauto.
Qed.
Lemma child_clock f clock h t t2 rows : child f clock h t rows = child f clock h t2 rows.
Proof.
  unfold child. pose proof (eval_rows_clock f clock rows h t t2) as C.
  destruct (eval_rows f clock h t rows) as [[h1 t1] [l1|e1]]; destruct (eval_rows f clock h t2 rows) as [[h2 t2'] [l2|e2]]; destruct C as (A & B); subst; auto; try contradiction.
  now rewrite B.
Qed.
Lemma mapM_ext2 {A B} (f g : A -> res B) l : (forall a, f a = g a) -> mapM f l = mapM g l.
Proof. intro H. induction l as [|a l IH]; [reflexivity|]. cbn [mapM]. now rewrite H, IH. Qed.
Lemma evaluate_clock o clock h t t2 rows h' t' ys cs : evaluate o clock h t rows = (h', t', Some (Ok (ys, cs))) ->
  exists t'' cs', evaluate o clock h t2 rows = (h', t'', Some (Ok (ys, cs'))).
Proof.
  unfold evaluate. destruct (Nat.eqb (o_procs o) 1).
  - destruct (eval_func (o_fun o) clock h t rows) as [[h1 t1] r] eqn:E. intros [= <- <- ->].
    destruct (eval_func_clock _ _ _ _ _ t2 _ _ _ _ E) as (t'' & cs' & ->). eauto.
  - assert (P : parallel_evaluation o clock h t rows = parallel_evaluation o clock h t2 rows).
    { unfold parallel_evaluation. destruct (_ && _); [reflexivity|]. now rewrite (mapM_ext2 _ (child (o_fun o) clock h t2) _ (child_clock _ _ _ _ _)). }
    rewrite P. destruct (parallel_evaluation o clock h t2 rows) as [[[ys1 cs1]|e]|]; [|  |discriminate].
    + intros [= <- <- <- <-]. eauto.
    + destruct (eval_func (o_fun o) clock h t rows) as [[h1 t1] r] eqn:E. intros [= <- <- ->].
      destruct (eval_func_clock _ _ _ _ _ t2 _ _ _ _ E) as (t'' & cs' & ->). eauto.
Qed.
Lemma untimed_cost lg fit c x cs c' r : is_time_cost c = false -> update_cost_model lg fit c x cs = (c', r) -> c' = c /\ r = Ok tt.
Proof. destruct c; intros T H; try discriminate; injection H as <- <-; auto. Qed.
Lemma untimed_cost2 lg fit c x cs : is_time_cost c = false -> update_cost_model lg fit c x cs = (c, Ok tt).
Proof. destruct c; intros T; try discriminate; reflexivity. Qed.

Lemma widths_all A B : widths_agree A B = true <-> exists w, Forall (fun r => length r = w) (A ++ B).
Proof.
  unfold widths_agree. destruct (A ++ B) as [|r t]; [split; [exists 0; constructor|auto]|]. rewrite forallb_forall. split.
  - intros H. exists (length r). constructor; auto. apply Forall_forall. intros x I. apply Nat.eqb_eq. auto.
  - intros (w & F) x I. inversion F as [|? ? F1 F2]; subst. rewrite Forall_forall in F2. apply Nat.eqb_eq. auto.
Qed.

Section Sim.
Context {M : Type}.
Variables (E : env M) (o : objective).
Hypothesis I1 : e_interval E = 1%Z.

(** The rows of the parameter history all have one width. *)
Definition width_ok (s : st M) (w : nat) : Prop := Forall (fun r => length r = w) (hist_rows (s_params s)).

Lemma update_on s s1 : update_model E s = (s1, Ok tt) ->
  exists Xm Y Ym m v, unzip_inputs (e_space E) (s_X s) = Ok Xm /\ s_Y s = Some Y /\ normalized (e_norm E) Y = Ok Ym /\
    e_update E (s_model s) Xm Ym = (m, None) /\ e_params E m = Some v /\
    s1 = with_model s m (Some (hist_rows (s_params s) ++ [v])) [(s_num s, Xm, Ym)] /\
    widths_agree (hist_rows (s_params s)) [v] = true.
Proof.
  unfold update_model. rewrite I1. cbn [Z.eqb]. rewrite Z.mod_1_r. cbn [Z.eqb].
  destruct (unzip_inputs (e_space E) (s_X s)) as [Xm|e]; [|discriminate]. destruct (s_Y s) as [Y|]; [|discriminate].
  destruct (normalized (e_norm E) Y) as [Ym|e] eqn:NM; [|discriminate]. cbv zeta. sproj.
  destruct (e_update E (s_model s) Xm Ym) as [m [e|]] eqn:U; [discriminate|]. unfold save_params. sproj.
  destruct (e_params E m) as [v|] eqn:P; [|discriminate]. destruct (s_params s) as [H|] eqn:SP.
  - unfold vstack. destruct (widths_agree H [v]) eqn:WA; [|discriminate]. intros [= <-].
    exists Xm, Y, Ym, m, v. cbn [hist_rows]. repeat (split; [first [assumption|reflexivity]|]). exact WA.
  - intros [= <-]. exists Xm, Y, Ym, m, v. cbn [hist_rows]. repeat (split; [first [assumption|reflexivity]|]). reflexivity.
Qed.
Lemma update_does s Xm Y Ym m v : unzip_inputs (e_space E) (s_X s) = Ok Xm -> s_Y s = Some Y -> normalized (e_norm E) Y = Ok Ym ->
  e_update E (s_model s) Xm Ym = (m, None) -> e_params E m = Some v -> widths_agree (hist_rows (s_params s)) [v] = true ->
  update_model E s = (with_model s m (Some (hist_rows (s_params s) ++ [v])) [(s_num s, Xm, Ym)], Ok tt).
Proof.
  intros H1 H2 H3 H4 H5 H6. unfold update_model. rewrite I1. cbn [Z.eqb]. rewrite Z.mod_1_r. cbn [Z.eqb]. rewrite H1, H2, H3. cbv zeta. sproj. rewrite H4.
  unfold save_params. sproj. rewrite H5. destruct (s_params s) as [H|] eqn:SP.
  - unfold vstack. cbn [hist_rows] in H6. rewrite H6. unfold with_model, set_params. sproj. cbn [hist_rows]. rewrite H2. reflexivity.
  - unfold with_model, set_params. sproj. cbn [hist_rows]. rewrite H2. reflexivity.
Qed.

Variable a : nat.
(** [s] is a state of the long run, [s2] of the resumed run after [a] iterations. *)
Definition sim (s s2 : st M) : Prop :=
  s_X s = s_X s2 /\ s_Y s = s_Y s2 /\ s_model s = s_model s2 /\ s_ctx s = s_ctx s2 /\ s_hist s = s_hist s2 /\ s_cost s = s_cost s2 /\
  is_time_cost (s_cost s) = false /\ s_num s = a + s_num s2 /\
  exists w, width_ok s w /\ width_ok s2 w /\ hist_rows (s_params s) <> [].

(** One iteration of both after the model update. *)
Variables (b : nat) (eps : Qc).
Lemma done_shift n : iters_done (Some (nat2q (a + b))) (a + n) = iters_done (Some (nat2q b)) n.
Proof.
  unfold iters_done. destruct (qcle (nat2q (a + b)) (nat2q (a + n))) eqn:A; destruct (qcle (nat2q b) (nat2q n)) eqn:B; auto.
  - apply qcle_spec in A. apply nat2q_le in A. assert (C : b <= n) by lia. apply nat2q_le in C. apply qcle_spec in C. congruence.
  - apply qcle_spec in B. apply nat2q_le in B. assert (C : a + b <= a + n) by lia. apply nat2q_le in C. apply qcle_spec in C. congruence.
Qed.

Definition rest (mi : option Qc) (z : Qc) (s : st M) : st M * option (run unit) :=
  if iters_done mi (s_num s) || (Nat.ltb 1 (length (s_X s)) && last_two_close eps (s_X s)) then (s, Some (Some (Ok tt)))
  else
    match compute_next_evaluations E s None None with
    | (s, None) => (s, Some None)
    | (s, Some (Raise e)) => (s, Some (Some (Raise e)))
    | (s, Some (Ok b)) =>
        let s := set_sugg s b in
        match vstack (s_X s) b with
        | Raise e => (s, Some (Some (Raise e)))
        | Ok X' =>
            match evaluate_objective E o (set_X s X') with
            | (s, Some (Ok _)) =>
                let s := set_cum (set_world s (s_hist s) (S (s_tick s))) (e_clock E (s_tick s) - z)%Qc in
                (set_num s (S (s_num s)), None)
            | (s, r) => (s, Some r)
            end
        end
    end.
Lemma iter_rest mi z s s1 : update_model E s = (s1, Ok tt) -> iter E o mi None eps z s = rest mi z s1.
Proof. intros U. unfold iter. cbn [time_left]. rewrite U. reflexivity. Qed.

(** What happens after the model update: the loop stops, or a batch is evaluated. *)
Lemma rest_go mi z s s' : rest mi z s = (s', None) ->
  exists m bt ys cs h t c, iters_done mi (s_num s) = false /\ (Nat.ltb 1 (length (s_X s)) && last_two_close eps (s_X s)) = false /\
    compute_next_evaluations E s None None = (set_model s m, Some (Ok bt)) /\ vstack (s_X s) bt = Ok (s_X s ++ bt) /\
    evaluate o (e_clock E) (s_hist s) (s_tick s) bt = (h, t, Some (Ok (ys, cs))) /\
    update_cost_model (e_lg E) (e_costfit E) (s_cost s) bt cs = (c, Ok tt) /\
    s' = mk_st M (s_X s ++ bt) (match s_Y s with Some Y => Some (Y ++ ys) | None => None end) c m (s_params s) (s_ctx s) (S (s_num s))
           (e_clock E t - z)%Qc bt (Some ys) (s_report s) h (S t) (s_updates s).
Proof.
  unfold rest. destruct (iters_done mi (s_num s)) eqn:ID; [discriminate|]. cbn [orb].
  destruct (Nat.ltb 1 (length (s_X s)) && last_two_close eps (s_X s)) eqn:CL; [discriminate|].
  destruct (compute_next_evaluations E s None None) as [s2 [[bt|e]|]] eqn:CN; [|discriminate|discriminate].
  pose proof (cne_spec _ _ _ _ _ _ CN) as (m2 & ->). cbn zeta. sproj.
  destruct (vstack (s_X s) bt) as [X'|e] eqn:V; [|discriminate]. pose proof (vstack_app _ _ _ V); subst X'.
  unfold evaluate_objective. sproj.
  destruct (evaluate o (e_clock E) (s_hist s) (s_tick s) bt) as [[h t] [[[ys cs]|e]|]] eqn:EV; cbv beta iota; [|discriminate|discriminate].
  sproj. destruct (update_cost_model (e_lg E) (e_costfit E) (s_cost s) bt cs) as [c [[]|e]] eqn:UC; cbv beta iota zeta; [|discriminate].
  intros [= <-]. exists m2, bt, ys, cs, h, t, c. repeat (split; [first [reflexivity|assumption]|]). reflexivity.
Qed.
Lemma rest_does mi z s m bt ys cs h t c : iters_done mi (s_num s) = false -> (Nat.ltb 1 (length (s_X s)) && last_two_close eps (s_X s)) = false ->
    compute_next_evaluations E s None None = (set_model s m, Some (Ok bt)) -> vstack (s_X s) bt = Ok (s_X s ++ bt) ->
    evaluate o (e_clock E) (s_hist s) (s_tick s) bt = (h, t, Some (Ok (ys, cs))) ->
    update_cost_model (e_lg E) (e_costfit E) (s_cost s) bt cs = (c, Ok tt) ->
  rest mi z s = (mk_st M (s_X s ++ bt) (match s_Y s with Some Y => Some (Y ++ ys) | None => None end) c m (s_params s) (s_ctx s) (S (s_num s))
           (e_clock E t - z)%Qc bt (Some ys) (s_report s) h (S t) (s_updates s), None).
Proof.
  intros H1 H2 H3 H4 H5 H6. unfold rest. rewrite H1, H2. cbn [orb]. rewrite H3. cbn zeta. sproj. rewrite H4.
  unfold evaluate_objective. sproj. rewrite H5. cbv beta iota zeta. sproj. rewrite H6. reflexivity.
Qed.
Lemma rest_stop mi z s s' : rest mi z s = (s', Some (Some (Ok tt))) ->
  s' = s /\ iters_done mi (s_num s) || (Nat.ltb 1 (length (s_X s)) && last_two_close eps (s_X s)) = true.
Proof.
  unfold rest. destruct (_ || _); [intros [= <-]; auto|].
  destruct (compute_next_evaluations E s None None) as [s2 [[bt|e]|]] eqn:CN; [|discriminate|discriminate]. cbn zeta.
  destruct (vstack (s_X _) bt) as [X'|e] eqn:V; [|discriminate].
  destruct (evaluate_objective _ _ _) as [s3 [[[]|e]|]]; discriminate.
Qed.
Lemma cne_core s s2 p i : s_X s = s_X s2 -> s_ctx s = s_ctx s2 -> s_model s = s_model s2 ->
  exists m, fst (compute_next_evaluations E s p i) = set_model s m /\ fst (compute_next_evaluations E s2 p i) = set_model s2 m /\
    snd (compute_next_evaluations E s p i) = snd (compute_next_evaluations E s2 p i).
Proof.
  intros HX HC HM. unfold compute_next_evaluations. rewrite HC, HX, HM. destruct (context_manager (e_space E) (s_ctx s2)) as [cm|e].
  - destruct (e_batch E _ _ _) as [m r]. exists m. auto.
  - exists (s_model s2). split; [|split; [|reflexivity]]; [rewrite <- HM|]; cbn [fst]; [now destruct s|now destruct s2].
Qed.
Lemma cne_same s s2 m r : s_X s = s_X s2 -> s_ctx s = s_ctx s2 -> s_model s = s_model s2 ->
  compute_next_evaluations E s None None = (set_model s m, r) -> compute_next_evaluations E s2 None None = (set_model s2 m, r).
Proof.
  intros HX HC HM H. destruct (cne_core s s2 None None HX HC HM) as (m' & A & B & C). rewrite H in A, C. cbn [fst snd] in *.
  assert (m' = m) as -> by (apply (f_equal s_model) in A; exact (eq_sym A)).
  rewrite (surjective_pairing (compute_next_evaluations E s2 None None)). now rewrite B, <- C.
Qed.

Lemma rest_sim z z2 s s2 s' : sim s s2 -> rest (Some (nat2q (a + b))) z s = (s', None) ->
  exists s2', rest (Some (nat2q b)) z2 s2 = (s2', None) /\ sim s' s2'.
Proof.
  intros (SX & SY & SM & SC & SH & SK & TC & SN & w & W1 & W2 & NE) R. apply rest_go in R as (m & bt & ys & cs & h & t & c & D & CL & CN & V & EV & UC & ->).
  destruct (evaluate_clock _ _ _ _ (s_tick s2) _ _ _ _ _ EV) as (t2 & cs2 & EV2).
  destruct (untimed_cost _ _ _ _ _ _ _ TC UC) as (-> & _).
  exists (mk_st M (s_X s2 ++ bt) (match s_Y s2 with Some Y => Some (Y ++ ys) | None => None end) (s_cost s2) m (s_params s2) (s_ctx s2) (S (s_num s2))
           (e_clock E t2 - z2)%Qc bt (Some ys) (s_report s2) h (S t2) (s_updates s2)).
  split.
  - eapply rest_does; eauto.
    + rewrite <- done_shift, <- SN. exact D.
    + now rewrite <- SX.
    + eapply cne_same; eauto.
    + now rewrite <- SX.
    + rewrite <- SH. exact EV2.
    + apply untimed_cost2. now rewrite <- SK.
  - unfold sim. sproj. rewrite SX, SY, SK. repeat (split; [auto; fail|]). split; [now rewrite <- SK|]. split; [lia|]. exists w. auto.
Qed.
Lemma rest_sim_stop z z2 s s2 s' : sim s s2 -> rest (Some (nat2q (a + b))) z s = (s', Some (Some (Ok tt))) ->
  s' = s /\ rest (Some (nat2q b)) z2 s2 = (s2, Some (Some (Ok tt))).
Proof.
  intros (SX & SY & SM & SC & SH & SK & TC & SN & w & W1 & W2 & NE) R. apply rest_stop in R as (-> & C). split; auto.
  unfold rest. rewrite <- done_shift, <- SN, <- SX, C. reflexivity.
Qed.

Lemma update_sim s s2 s1 : sim s s2 -> update_model E s = (s1, Ok tt) -> exists s21, update_model E s2 = (s21, Ok tt) /\ sim s1 s21.
Proof.
  intros (SX & SY & SM & SC & SH & SK & TC & SN & w & W1 & W2 & NE) U. apply update_on in U as (Xm & Y & Ym & m & v & H1 & H2 & H3 & H4 & H5 & -> & H6).
  apply widths_all in H6 as (w' & H6). apply Forall_app in H6 as (F1 & F2).
  assert (w' = w) as ->.
  { unfold width_ok in W1. destruct (hist_rows (s_params s)) as [|r H]; [congruence|]. inversion F1; inversion W1; congruence. }
  eexists. split.
  - eapply update_does; [rewrite <- SX; exact H1|rewrite <- SY; exact H2|exact H3|rewrite <- SM; exact H4|exact H5|].
    apply widths_all. exists w. apply Forall_app. auto.
  - unfold sim, width_ok. sproj. repeat (split; [auto; fail|]). exists w. cbn [hist_rows]. split; [apply Forall_app; auto|]. split; [apply Forall_app; auto|].
    destruct (hist_rows (s_params s)); discriminate.
Qed.

Hypothesis FIT : fits E.
Lemma update_no_linalg s s1 : update_model E s <> (s1, Raise LinAlgError).
Proof.
  intro U. apply update_model_spec in U as (m & p & U & _ & _ & _ & _ & _ & Xm & Ym & _ & F). exact (FIT _ _ _ F).
Qed.
Lemma iter_ok mi z s s' r : iter E o mi None eps z s = (s', r) -> r = None \/ r = Some (Some (Ok tt)) ->
  exists s1, update_model E s = (s1, Ok tt) /\ rest mi z s1 = (s', r).
Proof.
  intros H R. destruct (update_model E s) as [s1 [[]|e]] eqn:U; [exists s1; rewrite (iter_rest _ _ _ _ U) in H; auto|].
  unfold iter in H. cbn [time_left] in H. rewrite U in H. destruct e; injection H as <- <-; try (destruct R; discriminate). exfalso. eapply update_no_linalg; eauto.
Qed.

Lemma loop_sim z z2 : forall fuel s s2 s', sim s s2 -> loop fuel E o (Some (nat2q (a + b))) None eps z s = (s', Some (Ok tt)) ->
  exists s2', loop fuel E o (Some (nat2q b)) None eps z2 s2 = (s2', Some (Ok tt)) /\ sim s' s2'.
Proof.
  induction fuel as [|fuel IH]; intros s s2 s' S L; [discriminate|]. rewrite loop_iter in L.
  destruct (iter E o _ None eps z s) as [s1 [r|]] eqn:I.
  - injection L as <- ->. apply iter_ok in I as (u & U & R); auto. destruct (update_sim _ _ _ S U) as (u2 & U2 & Su).
    destruct (rest_sim_stop z z2 _ _ _ Su R) as (-> & R2). exists u2. rewrite loop_iter, (iter_rest _ _ _ _ U2), R2. auto.
  - apply iter_ok in I as (u & U & R); auto. destruct (update_sim _ _ _ S U) as (u2 & U2 & Su).
    destruct (rest_sim z z2 _ _ _ Su R) as (s3 & R2 & S3). destruct (IH _ _ _ S3 L) as (s2' & L2 & S').
    exists s2'. rewrite loop_iter, (iter_rest _ _ _ _ U2), R2. auto.
Qed.
End Sim.

Lemma loop_more {M} (E : env M) o mi mt eps z : forall fuel s s' r, loop fuel E o mi mt eps z s = (s', Some r) -> loop (S fuel) E o mi mt eps z s = (s', Some r).
Proof.
  induction fuel as [|fuel IH]; intros s s' r H; [discriminate|]. rewrite loop_iter in H. rewrite loop_iter.
  destruct (iter E o mi mt eps z s) as [s1 [r1|]]; auto.
Qed.

Section Split.
Context {M : Type}.
Variables (E : env M) (o : objective) (eps : Qc).
Hypothesis I1 : e_interval E = 1%Z.
Hypothesis FIT : fits E.
Hypothesis STABLE : refit_stable E.

(** [t] is the beginning of a run on the object that is in state [s]. *)
Definition restarts (s t : st M) : Prop :=
  s_X t = s_X s /\ s_Y t = s_Y s /\ s_model t = s_model s /\ s_ctx t = s_ctx s /\ s_hist t = s_hist s /\ s_cost t = s_cost s /\
  s_num t = 0 /\ s_params t = None.
Lemma resume_update s s1 t : update_model E s = (s1, Ok tt) -> is_time_cost (s_cost s) = false -> restarts s1 t ->
  exists t1, update_model E t = (t1, Ok tt) /\ sim (s_num s) s1 t1.
Proof.
  intros U TC (RX & RY & RM & RC & RH & RK & RN & RP). apply update_on in U as (Xm & Y & Ym & m & v & H1 & H2 & H3 & H4 & H5 & -> & H6); auto.
  sproj in *. eexists. split.
  - eapply update_does; [exact I1|rewrite RX; exact H1|rewrite RY; exact H2|exact H3|rewrite RM; eapply STABLE; exact H4|exact H5|].
    rewrite RP. cbn [hist_rows]. apply widths_all. exists (length v). repeat constructor.
  - apply widths_all in H6 as (w & H6). unfold sim, width_ok. sproj. rewrite RP, RN. repeat (split; [auto; fail|]). exists w. cbn [hist_rows].
    split; [exact H6|]. split; [apply Forall_app in H6; tauto|]. destruct (hist_rows (s_params s)); discriminate.
Qed.

Lemma split_loop a b z z2 : forall fuel s s', s_num s <= a -> is_time_cost (s_cost s) = false ->
  loop fuel E o (Some (nat2q (a + b))) None eps z s = (s', Some (Ok tt)) ->
  exists s1, loop fuel E o (Some (nat2q a)) None eps z s = (s1, Some (Ok tt)) /\ s_ctx s1 = s_ctx s /\
    forall t, restarts s1 t -> exists s2, loop fuel E o (Some (nat2q b)) None eps z2 t = (s2, Some (Ok tt)) /\ sim (s_num s1) s' s2.
Proof.
  induction fuel as [|fuel IH]; intros s s' N TC L; [discriminate|].
  rewrite loop_iter in L. destruct (iter E o _ None eps z s) as [sn [r|]] eqn:I.
  - (* the long run stops here *)
    injection L as <- ->. apply iter_ok in I as (u & U & R); auto. apply rest_stop in R as (-> & C).
    assert (Nu : s_num u = s_num s /\ s_ctx u = s_ctx s).
    { apply update_on in U as (Xm & Y & Ym & m & v & _ & _ & _ & _ & _ & -> & _); auto. }
    exists u. split; [|split; [tauto|]].
    + rewrite loop_iter, (iter_rest E o eps _ _ _ _ U). unfold rest.
      replace (iters_done (Some (nat2q a)) (s_num u) || (Nat.ltb 1 (length (s_X u)) && last_two_close eps (s_X u))) with true; [reflexivity|].
      symmetry. apply orb_true_iff in C as [C|C]; [|rewrite C; apply orb_true_r]. unfold iters_done in *. apply qcle_spec, nat2q_le in C.
      apply orb_true_iff. left. apply qcle_spec, nat2q_le. lia.
    + intros t Ht. destruct (resume_update _ _ _ U TC Ht) as (t1 & U1 & S1). exists t1. destruct Nu as (Nu & _). rewrite Nu. split; auto.
      rewrite loop_iter, (iter_rest E o eps _ _ _ _ U1). unfold rest. destruct S1 as (SX & _ & _ & _ & _ & _ & _ & SN & _).
      replace (iters_done (Some (nat2q b)) (s_num t1) || (Nat.ltb 1 (length (s_X t1)) && last_two_close eps (s_X t1))) with true; [reflexivity|].
      symmetry. rewrite <- SX. apply orb_true_iff in C as [C|C]; [|rewrite C; apply orb_true_r]. unfold iters_done in *. apply qcle_spec, nat2q_le in C.
      apply orb_true_iff. left. apply qcle_spec, nat2q_le. lia.
  - apply iter_ok in I as (u & U & R); auto.
    assert (Nu : s_num u = s_num s /\ s_ctx u = s_ctx s /\ s_cost u = s_cost s).
    { apply update_on in U as (Xm & Y & Ym & m & v & _ & _ & _ & _ & _ & -> & _); auto. }
    destruct Nu as (Nu & Cu & Ku). destruct (Nat.eq_dec (s_num s) a) as [Ea|Ea].
    + (* the short run stops, the long one goes on *)
      exists u. split; [|split; [auto|]].
      * rewrite loop_iter, (iter_rest E o eps _ _ _ _ U). unfold rest.
        replace (iters_done (Some (nat2q a)) (s_num u)) with true; [reflexivity|]. symmetry. apply qcle_spec, nat2q_le. lia.
      * intros t Ht. destruct (resume_update _ _ _ U TC Ht) as (t1 & U1 & S1). rewrite <- Nu in S1. rewrite Nu, Ea in *.
        destruct (rest_sim E o a b eps z z2 _ _ _ S1 R) as (t2 & R2 & S2).
        destruct (loop_sim E o I1 a b eps FIT z z2 _ _ _ _ S2 L) as (s2 & L2 & S').
        exists s2. rewrite loop_iter, (iter_rest E o eps _ _ _ _ U1), R2. auto.
    + (* both go on *)
      pose proof R as R0. apply rest_go in R as (m & bt & ys & cs & h & t & c & D & CL & CN & V & EV & UC & ->).
      assert (Ka : rest E o eps (Some (nat2q a)) z u = rest E o eps (Some (nat2q (a + b))) z u).
      { unfold rest at 1 2. replace (iters_done (Some (nat2q a)) (s_num u)) with false; [now rewrite D|].
        symmetry. unfold iters_done. apply qcle_false, nat2q_lt. lia. }
      rewrite R0 in Ka. apply IH in L as (s1 & L1 & C1 & H1); cbn [s_num s_cost s_ctx] in *; [|lia|].
      * exists s1. rewrite loop_iter, (iter_rest E o eps _ _ _ _ U), Ka. split; [exact L1|]. split; [congruence|].
        intros t0 Ht. destruct (H1 t0 Ht) as (s2 & L2 & S2). exists s2. split; [|exact S2].
        apply loop_more. exact L2.
      * destruct (untimed_cost _ _ _ _ _ _ _ (eq_trans (f_equal is_time_cost Ku) TC) UC) as (-> & _). now rewrite Ku.
Qed.
End Split.

(** ---- whole runs ---- *)
Lemma compute_results_ok {M} (s : st M) Y : s_Y s = Some Y -> length (s_X s) = length Y -> s_X s <> [] -> exists s', compute_results s = (s', Ok tt).
Proof.
  intros SY L NE. unfold compute_results. rewrite SY. destruct (s_X s) as [|x X] eqn:SX; [congruence|]. destruct Y as [|y Y]; [discriminate|].
  destruct (argmin (y :: Y)) as [i|] eqn:A; [|discriminate].
  assert (i < length (y :: Y)).
  { apply argmin_first_min in A as (m & A & _). apply nth_error_Some. congruence. }
  unfold get. destruct (nth_error (x :: X) i) eqn:N; [|apply nth_error_None in N; rewrite L in N; lia]. cbn [py_min]. eauto.
Qed.
Lemma compute_results_core {M} (s s2 s' : st M) : s_X s = s_X s2 -> s_Y s = s_Y s2 -> compute_results s = (s', Ok tt) ->
  exists s2', compute_results s2 = (s2', Ok tt) /\ s_report s2' = s_report s'.
Proof.
  intros SX SY. unfold compute_results. rewrite SX, SY. destruct (s_Y s2); [|discriminate]. destruct (argmin v); [|discriminate].
  destruct (get (s_X s2) n) as [x|]; [|discriminate]. destruct (py_min v) as [m|]; [|discriminate]. intros [= <-]. eexists. split; reflexivity.
Qed.
Lemma steps_data {M} (E : env M) o mi mt eps z n s s1 Y : steps E o mi mt eps z n s s1 -> s_Y s = Some Y -> length (s_X s) = length Y ->
  exists Y1, s_Y s1 = Some Y1 /\ length (s_X s1) = length Y1 /\ (s_X s <> [] -> s_X s1 <> []).
Proof.
  intros ST SY L. destruct (steps_traj E o mi mt eps z n s s1 Y ST SY) as (bs & yss & (_ & _ & HX & HY & F & _) & _).
  exists (Y ++ concat yss). split; auto. rewrite HX. split; [|destruct (s_X s); [congruence|discriminate]]. rewrite !app_length, L. f_equal.
  clear -F. induction F as [|b ys bs yss H F IH]; [reflexivity|]. cbn [concat]. rewrite !app_length. now f_equal.
Qed.
Lemma loop_data {M} (E : env M) o mi mt eps z fuel s s1 Y : loop fuel E o mi mt eps z s = (s1, Some (Ok tt)) -> s_Y s = Some Y -> length (s_X s) = length Y ->
  exists Y1, s_Y s1 = Some Y1 /\ length (s_X s1) = length Y1 /\ (s_X s <> [] -> s_X s1 <> []).
Proof.
  intros L SY LE. apply loop_steps in L as (n & s2 & ST & [(_ & I)|(_ & _ & H)]); [|discriminate].
  destruct (steps_data _ _ _ _ _ _ _ _ _ _ ST SY LE) as (Y1 & A & B & C). apply iter_stop_ok in I as (-> & -> & _). eauto.
Qed.

Lemma split_run {M} (E : env M) o (a b : nat) fuel s s' eps ctx :
  e_obj E = Some o -> e_interval E = 1%Z -> fits E -> refit_stable E -> is_time_cost (s_cost s) = false ->
  s_X s <> [] -> (forall Y, s_Y s = Some Y -> length (s_X s) = length Y) ->
  run_optimization fuel E s (LFin (nat2q (a + b))) LInf eps ctx = (s', Some (Ok tt)) ->
  exists s1 s2, run_optimization fuel E s (LFin (nat2q a)) LInf eps ctx = (s1, Some (Ok tt)) /\
    run_optimization fuel E s1 (LFin (nat2q b)) LInf eps ctx = (s2, Some (Ok tt)) /\
    s_X s2 = s_X s' /\ s_Y s2 = s_Y s' /\ s_report s2 = s_report s' /\ s_hist s2 = s_hist s' /\ s_model s2 = s_model s' /\ s_num s' = s_num s1 + s_num s2.
Proof.
  intros O I1 FIT ST TC NE AL. unfold run_optimization. rewrite O. cbv zeta. cbn [stop_conditions fst snd].
  destruct (initial_evaluation E o (set_ctx (set_params s None) ctx)) as [s0 [[[]|e]|]] eqn:IN; [|discriminate|discriminate].
  destruct (initial_ok _ _ _ _ IN) as (Y0 & Y0s & X0 & P0 & C0 & _ & _ & _ & HY). sproj in *.
  assert (L0 : length (s_X s0) = length Y0).
  { rewrite X0. destruct (s_Y s) as [Y|] eqn:SY.
    - destruct HY as (-> & _). apply AL. reflexivity.
    - symmetry. exact (proj1 HY). }
  assert (TC0 : is_time_cost (s_cost s0) = false).
  { unfold initial_evaluation in IN. sproj in *. destruct (s_Y s); [injection IN as <-; exact TC|].
    destruct (evaluate _ _ _ _ _) as [[h t] [[[ys cs]|e]|]]; [|discriminate|discriminate]. cbv zeta in IN. sproj in *. rewrite TC in IN. injection IN as <-. exact TC. }
  set (q := set_ynew _ _). destruct (loop fuel E o (Some (nat2q (a + b))) None eps (e_clock E (s_tick s0)) q) as [sl [[[]|e]|]] eqn:L; [|discriminate|discriminate].
  destruct (compute_results sl) as [sr r] eqn:CR. intros [= <- ->].
  destruct (split_loop E o eps I1 FIT ST a b (e_clock E (s_tick s0)) q0 fuel q sl) as (u & Lu & Cu & _); [subst q; sproj; lia|exact TC0|exact L|].
  destruct (loop_data _ _ _ _ _ _ _ _ _ Y0 Lu) as (Yu & HYu & LYu & NEu); [exact Y0s|exact L0|].
  destruct (compute_results_ok u Yu HYu LYu) as (s1 & R1); [apply NEu; subst q; sproj; now rewrite X0|].
  rewrite Lu. pose proof (compute_results_spec _ _ _ R1) as (E1 & _).
  destruct (split_loop E o eps I1 FIT ST a b (e_clock E (s_tick s0)) (e_clock E (s_tick s1)) fuel q sl) as (u' & Lu' & _ & RS); [subst q; sproj; lia|exact TC0|exact L|].
  rewrite Lu in Lu'. injection Lu' as <-.
  assert (Eu : s_X s1 = s_X u /\ s_Y s1 = Some Yu /\ s_model s1 = s_model u /\ s_hist s1 = s_hist u /\ s_cost s1 = s_cost u /\ s_num s1 = s_num u)
    by (rewrite E1; sproj; auto 10).
  destruct Eu as (E2 & E3 & E4 & E5 & E6 & E7).
  rewrite R1. exists s1.
  assert (I2 : initial_evaluation E o (set_ctx (set_params s1 None) ctx) = (set_ctx (set_params s1 None) ctx, Some (Ok tt))).
  { unfold initial_evaluation. sproj. now rewrite E3. }
  set (t := set_ynew (set_sugg (set_num (set_cum (set_world (set_ctx (set_params s1 None) ctx) (s_hist s1) (S (s_tick s1))) q0) 0) (s_X s1)) (s_Y s1)).
  destruct (RS t) as (s2 & L2 & SM).
  { unfold restarts. subst t. sproj. rewrite E3. repeat (split; [auto; fail|]). split; [|auto]. rewrite Cu. subst q. sproj. now rewrite C0. }
  destruct SM as (SX & SY & SMo & SC & SH & SK & _ & SN & _).
  destruct (compute_results_core _ _ _ SX SY CR) as (s2' & R2 & RR).
  exists s2'. split; [reflexivity|]. rewrite I2. sproj. fold t. rewrite L2, R2. split; [reflexivity|].
  apply compute_results_spec in CR as (F1 & _). apply compute_results_spec in R2 as (F2 & _).
  repeat split; auto.
  - rewrite F1, F2. sproj. auto.
  - rewrite F1, F2. sproj. auto.
  - rewrite F1, F2. sproj. auto.
  - rewrite F1, F2. sproj. auto.
  - rewrite F1, F2. sproj. rewrite E7. auto.
Qed.

(** ---- ask and tell ---- *)
Section AskTell.
Context {M : Type}.
Variables (E : env M) (o : objective) (renew : M -> M) (cost : costarg).
Hypothesis I1 : e_interval E = 1%Z.
Hypothesis ML : memoryless E renew.
Hypothesis PR : o_procs o = 1.

Lemma ask_same s s1 m2 b Y : update_model E s = (s1, Ok tt) -> s_Y s = Some Y ->
  compute_next_evaluations E s1 None None = (set_model s1 m2, Some (Ok b)) ->
  ask E renew cost (s_model s) (s_X s) Y (s_ctx s) None None = (m2, Some (Ok b)).
Proof.
  intros U SY CN. apply (update_on E I1) in U as (Xm & Y' & Ym & m & v & H1 & H2 & H3 & H4 & H5 & -> & _).
  rewrite SY in H2. injection H2 as <-. rewrite <- (ML (s_model s)) in H4. unfold ask, suggest_next_locations.
  pose proof (update_does (no_objective E) I1 (set_ctx (set_num (set_params (bo_init (s_X s) (Some Y) cost (renew (s_model s))) None) 0) (s_ctx s))
    Xm Y Ym m v H1 eq_refl H3 H4 H5 eq_refl) as UD. rewrite UD. clear UD.
  set (s2 := with_model _ _ _ _). assert (C : compute_next_evaluations E s2 None None = (set_model s2 m2, Some (Ok b))).
  { eapply cne_same; [| | |exact CN]; reflexivity. }
  change (compute_next_evaluations (no_objective E)) with (compute_next_evaluations E). rewrite C. reflexivity.
Qed.

Lemma eval_rows_of f clock h t rows h' t' ys cs t2 : eval_func f clock h t rows = (h', t', Ok (ys, cs)) ->
  exists t'' l, eval_rows f clock h t2 rows = (h', t'', Ok l) /\ map fst l = ys.
Proof.
  unfold eval_func. pose proof (eval_rows_clock f clock rows h t t2) as C.
  destruct (eval_rows f clock h t rows) as [[h1 t1] [l1|e1]]; [|discriminate].
  destruct (eval_rows f clock h t2 rows) as [[h2 t2'] [l2|e2]]; destruct C as (A & B); [|contradiction].
  intros [= <- <- <- <-]. subst. eauto.
Qed.

Lemma steps_ask mi mt eps z n s s' : steps E o mi mt eps z n s s' -> forall Y, s_Y s = Some Y ->
  exists Y', s_Y s' = Some Y' /\ s_num s' = s_num s + n /\
    ask_tell n E renew cost (o_fun o) (s_ctx s) (s_model s) (s_X s) Y (s_hist s) = Some (Ok (s_X s', Y', s_hist s')).
Proof.
  induction 1 as [s|n s s1 s2 I ST IH]; intros Y SY.
  - exists Y. cbn [ask_tell]. split; auto.
  - unfold iter in I. destruct (time_left mt (s_cum s)); [|discriminate].
    destruct (update_model E s) as [s3 [[]|e]] eqn:UM; [|destruct e; discriminate].
    pose proof (update_model_spec E s s3 _ UM) as (m & p & U & W & _ & _).
    destruct (rest_go E o eps mi z s3 s1 I) as (m3 & bt & ys & cs & h & t & c & _ & _ & CN & V & EV & UC & ->).
    cbn [ask_tell]. rewrite (ask_same s s3 m3 bt Y UM SY CN). cbn [rbind].
    subst s3. sproj in *. rewrite SY in *.
    destruct (IH (Y ++ ys) eq_refl) as (Y' & A & B & C). exists Y'. split; auto. split; [sproj in *; lia|].
    unfold evaluate in EV. rewrite PR in EV. cbn [Nat.eqb] in EV.
    destruct (eval_func (o_fun o) (e_clock E) (s_hist s) (s_tick s) bt) as [[h1 t1] r] eqn:EF. injection EV as <- <- ->.
    destruct (eval_rows_of _ _ _ _ _ _ _ _ _ 0 EF) as (t'' & l & -> & <-). cbn [rbind]. rewrite V. cbn [rbind]. sproj in *. exact C.
Qed.

Lemma run_ask fuel s mi mt eps ctx s' Y : e_obj E = Some o -> s_Y s = Some Y -> run_optimization fuel E s mi mt eps ctx = (s', Some (Ok tt)) ->
  exists Y', s_Y s' = Some Y' /\
    ask_tell (s_num s') E renew cost (o_fun o) ctx (s_model s) (s_X s) Y (s_hist s) = Some (Ok (s_X s', Y', s_hist s')).
Proof.
  intros O SY. unfold run_optimization. rewrite O. cbv zeta. unfold initial_evaluation. sproj. rewrite SY.
  destruct (loop fuel E o _ _ eps _ _) as [sl [[[]|e]|]] eqn:L; [|discriminate|discriminate].
  destruct (compute_results sl) as [sr r] eqn:CR. intros [= <- ->].
  apply loop_steps in L as (n & s2 & ST & [(_ & I)|(_ & _ & H)]); [|discriminate].
  destruct (steps_ask _ _ _ _ _ _ _ ST Y) as (Y' & A & B & C); [sproj; auto|]. sproj in *.
  apply iter_stop_ok in I as (J1 & J2 & J3 & J4 & _). apply compute_results_spec in CR as (-> & _). sproj.
  exists Y'. rewrite J1, J2, J3, J4, B. split; auto.
Qed.
End AskTell.

(** ---- several evaluations at a time ---- *)
Lemma once_app A B : once A -> NoDup B -> (forall t, nonzero_row t -> In t B -> ~ In t A) -> once (A ++ B).
Proof.
  intros OA ND H i j t Hi Hj NZ. destruct (Nat.lt_ge_cases i (length A)) as [Li|Li]; destruct (Nat.lt_ge_cases j (length A)) as [Lj|Lj].
  - rewrite nth_error_app1 in Hi, Hj by auto. eapply OA; eauto.
  - rewrite nth_error_app1 in Hi by auto. rewrite nth_error_app2 in Hj by auto. apply nth_error_In in Hi, Hj. now apply H in Hi.
  - rewrite nth_error_app2 in Hi by auto. rewrite nth_error_app1 in Hj by auto. apply nth_error_In in Hi, Hj. now apply H in Hi.
  - rewrite nth_error_app2 in Hi, Hj by auto. assert (i - length A = j - length A); [|lia].
    apply (proj1 (NoDup_nth_error B) ND); [apply nth_error_Some; congruence|congruence].
Qed.
Lemma nodup_once A : NoDup A -> once A.
Proof. intros ND i j t Hi Hj _. apply (proj1 (NoDup_nth_error A) ND); [apply nth_error_Some; congruence|congruence]. Qed.
Lemma once_nodup A : once A -> Forall nonzero_row A -> NoDup A.
Proof.
  intros O F. apply NoDup_nth_error. intros i j L H. destruct (nth_error A i) as [t|] eqn:N; [|apply nth_error_None in N; lia].
  eapply O; eauto. rewrite Forall_forall in F. apply F. eapply nth_error_In; eauto.
Qed.
Lemma take_out {A} k (l : list A) x : nth_error l k = Some x -> Permutation l (x :: firstn k l ++ skipn (S k) l).
Proof.
  intros H. apply nth_error_split in H as (l1 & l2 & -> & <-). rewrite firstn_app, Nat.sub_diag, firstn_all. cbn [firstn].
  rewrite app_nil_r, skipn_app. rewrite skipn_all2 by lia. replace (S (length l1) - length l1) with 1 by lia. cbn [skipn app].
  apply Permutation_sym, Permutation_middle.
Qed.

Section Sess.
Context {M : Type}.
Variables (E0 : env M) (g : suggester M) (renew : M -> M) (cost : costarg).
Notation E := (with_suggester E0 g).
Hypothesis DD : e_dedup E0 = true.
Hypothesis NL : sg_ev g <> ELP.
Variables (X0 : mat).

Definition sinv (s : session M) : Prop :=
  once (X0 ++ ss_asked s) /\ Permutation (ss_X s ++ ss_pending s) (X0 ++ ss_asked s) /\ length (ss_X s) = length (ss_Y s).

Lemma ask_unknown m X Y ctx p i m' b : ask E renew cost m X Y ctx p i = (m', Some (Ok b)) ->
  b <> [] /\ NoDup b /\ (forall t, In t b -> ~ In t (dm_points (duplicate_manager (e_space E0) X p i))).
Proof.
  unfold ask. destruct (suggest_next_locations _ _ _ _ _) as [s r] eqn:SG. intros [= <- ->].
  exact (suggest_unknown (no_objective E0) g DD NL _ _ _ _ _ _ SG).
Qed.
Lemma sstep_inv s op s' : sinv s -> sstep E renew cost s op = Some s' -> sinv s'.
Proof.
  intros (ON & PM & LE) H. destruct op as [ctx ig|k y]; cbn [sstep] in H.
  - destruct (ask _ _ _ _ _ _ _ _ _) as [m [[b|e]|]] eqn:A; [| |discriminate]; injection H as <-; [|repeat split; auto].
    apply ask_unknown in A as (_ & ND & U). unfold sinv. cbn [ss_X ss_Y ss_pending ss_asked]. rewrite !app_assoc. split; [|split; auto].
    + apply once_app; auto. intros t NZ I J. apply (U t I). apply dm_points_spec.
      apply (Permutation_in t (Permutation_sym PM)) in J. apply in_app_or in J as [J|J]; [auto|]. right. left.
      exists (ss_pending s). split; [destruct (ss_pending s); [contradiction|reflexivity]|]. split; auto.
      destruct NZ as (v & Iv & Nv). exists t, v. auto.
    + apply Permutation_app_tail. exact PM.
  - destruct (nth_error (ss_pending s) k) as [x|] eqn:N; injection H as <-; [|repeat split; auto].
    unfold sinv. cbn [ss_X ss_Y ss_pending ss_asked]. split; [auto|]. split; [|rewrite !app_length; cbn [length]; lia].
    rewrite <- PM, <- app_assoc. apply Permutation_app_head. apply take_out in N. rewrite N at 3. reflexivity.
Qed.
Lemma srun_inv : forall ops s s', sinv s -> srun E renew cost s ops = Some s' -> sinv s'.
Proof.
  induction ops as [|op ops IH]; intros s s' SI H; cbn [srun] in H; [now injection H as <-|].
  destruct (sstep E renew cost s op) as [s1|] eqn:ST; [|discriminate]. eapply IH; [|exact H]. eapply sstep_inv; eauto.
Qed.
End Sess.

Section SessDomain.
Context {M : Type}.
Variables (E0 : env M) (g : suggester M) (renew : M -> M) (cost : costarg) (ds : list descr) (cs : option (list constr)).
Notation E := (with_suggester E0 g).
Notation sp := (e_space E0).
Hypothesis D : design_space ds cs = Ok sp.
Hypothesis W : Forall wf_kind (kinds sp).
Hypothesis CC : Forall canonical_cats (kinds sp).
Hypothesis SO : sound g.
Lemma ask_domain m X Y ctx p i m' b : good_context sp ctx -> ask E renew cost m X Y ctx p i = (m', Some (Ok b)) -> Forall (in_domain (kinds sp)) b.
Proof.
  intros G. unfold ask. destruct (suggest_next_locations _ _ _ _ _) as [s r] eqn:SG. intros [= <- ->].
  exact (proj1 (proj2 (suggest_domain ds cs (no_objective E0) g D W CC SO _ _ _ _ _ _ G SG))).
Qed.
Lemma srun_domain : forall ops s s', Forall (asks_with (good_context sp)) ops -> Forall (in_domain (kinds sp)) (ss_asked s) ->
  srun E renew cost s ops = Some s' -> Forall (in_domain (kinds sp)) (ss_asked s').
Proof.
  induction ops as [|op ops IH]; intros s s' G F H; cbn [srun] in H; [now injection H as <-|]. inversion G as [|? ? G1 G2]; subst.
  destruct (sstep E renew cost s op) as [s1|] eqn:ST; [|discriminate]. eapply IH; [exact G2| |exact H]. destruct op as [ctx ig|k y]; cbn [sstep asks_with] in *.
  - destruct (ask E renew cost _ _ _ _ _ _) as [m [[b|e]|]] eqn:A; [| |discriminate]; injection ST as <-; auto.
    apply Forall_app. split; auto. eapply ask_domain; eauto.
  - destruct (nth_error _ _); injection ST as <-; auto.
Qed.
End SessDomain.
