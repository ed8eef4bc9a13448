From Coq Require Import String List ZArith QArith Qcanon Bool Lia.
From Verif.Model Require Import Py Space Design Optim Objective BO Alias.
From Verif.Spec Require Import BOSpec AliasSpec.
From Verif.Proof Require Import BOLoop.
Import ListNotations.
Local Open Scope nat_scope.

Lemma put_length {A} (a : A) : forall l i, length (put i a l) = length l.
Proof. induction l as [|b l IH]; intros [|i]; simpl; auto. Qed.
Lemma put_same {A} (d a : A) : forall l i, i < length l -> nth i (put i a l) d = a.
Proof. induction l as [|b l IH]; intros [|i] L; simpl in *; try lia; auto. apply IH; lia. Qed.
Lemma put_other {A} (d a : A) : forall l i j, i <> j -> nth j (put i a l) d = nth j l d.
Proof. induction l as [|b l IH]; intros [|i] [|j] L; simpl in *; try lia; auto. Qed.

Lemma rd_wr_same H a A : a < length H -> rd (wr H a A) a = A.
Proof. apply put_same. Qed.
Lemma rd_wr_other H a b A : a <> b -> rd (wr H a A) b = rd H b.
Proof. apply put_other. Qed.
Lemma rd_old H A a : a < length H -> rd (H ++ [A]) a = rd H a.
Proof. intros L. unfold rd. now rewrite app_nth1. Qed.
Lemma rd_new H A : rd (H ++ [A]) (length H) = A.
Proof. unfold rd. rewrite app_nth2, Nat.sub_diag by lia. reflexivity. Qed.

Lemma firstn_put {A} (a : A) : forall l i, firstn i (put i a l) = firstn i l.
Proof. induction l as [|b l IH]; intros [|i]; simpl; auto. now rewrite IH. Qed.
Lemma skipn_put {A} (a : A) : forall l i, skipn (S i) (put i a l) = skipn (S i) l.
Proof. induction l as [|b l IH]; intros [|i]; auto. exact (IH i). Qed.
Lemma firstn_S_put {A} (a : A) : forall l i, i < length l -> firstn (S i) (put i a l) = firstn i l ++ [a].
Proof.
  induction l as [|b l IH]; intros [|i] L; cbn [length] in L; try lia; [reflexivity|].
  change (b :: firstn (S i) (put i a l) = b :: firstn i l ++ [a]). now rewrite IH by lia.
Qed.
Lemma skipn_nth {A} (d : A) : forall l i, i < length l -> skipn i l = nth i l d :: skipn (S i) l.
Proof. induction l as [|b l IH]; intros [|i] L; simpl in *; try lia; auto. rewrite IH by lia. reflexivity. Qed.

Section Eval.
Context (f : mutfun) (clock : nat -> Qc).

(** The values are those of the plain function, other arrays are untouched, and the array holds what was left. *)
Lemma eval_rows_m_spec a : forall n H h t i H' p, a < length H -> i + n = length (rd H a) ->
  eval_rows_m f clock H h t a i n = (H', p) ->
  p = eval_rows (value_of f) clock h t (skipn i (rd H a)) /\ length H' = length H /\ (forall b, b <> a -> rd H' b = rd H b) /\
  length (rd H' a) = length (rd H a) /\
  (forall h' t' l, p = (h', t', Ok l) -> rd H' a = firstn i (rd H a) ++ left_by f h (skipn i (rd H a))).
Proof.
  induction n as [|n IH]; intros H h t i H' p LA LI E.
  - cbn in E. injection E as <- <-. rewrite skipn_all2 by lia. repeat split; auto. intros h' t' l _. cbn. rewrite app_nil_r, firstn_all2 by lia. reflexivity.
  - cbn [eval_rows_m] in E. set (x := nth i (rd H a) []) in *. destruct (f h x) as [x' r] eqn:F. rewrite (skipn_nth (A:=vec) [] (rd H a) i) by lia. fold x.
    cbn [eval_rows left_by]. unfold value_of at 1. rewrite F. cbn [snd fst].
    assert (LW : length (wr_row H a i x') = length H) by apply put_length.
    assert (RW : rd (wr_row H a i x') a = put i x' (rd H a)) by (apply rd_wr_same; auto).
    assert (RO : forall b, b <> a -> rd (wr_row H a i x') b = rd H b) by (intros b N; apply rd_wr_other; auto).
    destruct r as [y|e].
    + destruct (eval_rows_m f clock (wr_row H a i x') (h ++ [x]) (S (S t)) a (S i) n) as [H1 [[h1 t1] r1]] eqn:R.
      apply IH in R as (P & LE & O & LL & C); [|lia|rewrite RW, put_length; lia]. rewrite RW, skipn_put in P. rewrite <- P.
      assert (E' : H' = H1 /\ p = match r1 with Ok l => (h1, t1, Ok ((y, (clock (S t) - clock t)%Qc) :: l)) | Raise e => (h1, t1, Raise e) end)
        by (destruct r1; injection E as <- <-; auto). destruct E' as (-> & ->). clear E.
      split; [destruct r1; reflexivity|]. split; [lia|]. split; [intros b N; rewrite O, RO; auto|].
      split; [rewrite LL, RW; apply put_length|].
      intros h' t' l Q. destruct r1 as [l1|]; [|discriminate]. rewrite (C _ _ _ eq_refl), RW, firstn_S_put, skipn_put, <- app_assoc by lia. reflexivity.
    + injection E as <- <-. repeat split; auto; [rewrite RW; apply put_length|]. intros h' t' l [=].
Qed.
End Eval.

Lemma evaluate_m_spec o clock H h t a H' p : a < length H -> evaluate_m o clock H h t a = (H', p) ->
  p = evaluate (plain o) clock h t (rd H a) /\ length H' = length H /\ (forall b, b <> a -> rd H' b = rd H b) /\
  length (rd H' a) = length (rd H a) /\
  (om_procs o = 1 -> forall h' t' l, p = (h', t', Some (Ok l)) -> rd H' a = left_by (om_fun o) h (rd H a)) /\
  (om_procs o <> 1 -> om_fork o = true -> H' = H).
Proof.
  intros LA E. unfold evaluate_m in E. unfold evaluate. cbn [plain o_procs o_fun].
  destruct (eval_func_m (om_fun o) clock H h t a) as [H1 [[h1 t1] r1]] eqn:EF.
  assert (S : (h1, t1, r1) = eval_func (value_of (om_fun o)) clock h t (rd H a) /\ length H1 = length H /\ (forall b, b <> a -> rd H1 b = rd H b) /\
    length (rd H1 a) = length (rd H a) /\ (forall l, r1 = Ok l -> rd H1 a = left_by (om_fun o) h (rd H a))).
  { unfold eval_func_m in EF. unfold eval_func. destruct (eval_rows_m _ _ _ _ _ _ _ _) as [H2 [[h2 t2] r2]] eqn:R.
    apply eval_rows_m_spec in R as (P & L & O & LL & C); auto. rewrite skipn_O in P. rewrite <- P.
    destruct r2 as [l2|e2]; injection EF as <- <- <- <-; repeat split; auto; [|intros l [=]].
    intros l _. rewrite (C _ _ _ eq_refl). reflexivity. }
  destruct S as (P & L & O & LL & C). destruct (Nat.eqb_spec (om_procs o) 1) as [N|N].
  - injection E as <- <-. rewrite <- P. repeat split; auto; [|intros; lia]. intros _ h' t' l [= _ _ Q]. eapply C; eauto.
  - destruct (parallel_evaluation (plain o) clock h t (rd H a)) as [[v|e]|] eqn:PE.
    + injection E as <- <-. repeat split; auto; intros; lia.
    + injection E as <- <-. rewrite <- P. repeat split; auto; [intros; lia|]. intros _ F. exfalso. unfold parallel_evaluation in PE. cbn in PE. rewrite F in PE. cbn in PE.
      destruct (mapM _ _); discriminate.
    + injection E as <- <-. repeat split; auto; intros; lia.
Qed.

Lemma evaluate_m_length o clock H h t a H' p : evaluate_m o clock H h t a = (H', p) -> length H' = length H.
Proof.
  assert (R : forall f n H h t i H' p, eval_rows_m f clock H h t a i n = (H', p) -> length H' = length H).
  { intros f. induction n as [|n IH]; intros H0 h0 t0 i H1 p1 E; cbn [eval_rows_m] in E; [now injection E as <- _|].
    destruct (f h0 _) as [x' [y|e]].
    - destruct (eval_rows_m f clock _ _ _ a (S i) n) as [H2 [[h2 t2] r2]] eqn:R. apply IH in R. unfold wr_row, wr in R. rewrite put_length in R.
      destruct r2; injection E as <- _; auto.
    - injection E as <- _. apply put_length. }
  assert (F : forall f H h t H' p, eval_func_m f clock H h t a = (H', p) -> length H' = length H).
  { intros f H0 h0 t0 H1 p1 E. unfold eval_func_m in E. destruct (eval_rows_m _ _ _ _ _ _ _ _) as [H2 [[h2 t2] r2]] eqn:Q. apply R in Q.
    destruct r2; injection E as <- _; auto. }
  unfold evaluate_m. destruct (eval_func_m (om_fun o) clock H h t a) as [H1 [[h1 t1] r1]] eqn:Q. apply F in Q.
  destruct (Nat.eqb _ _); [intros [= <- _]; auto|]. destruct (parallel_evaluation _ _ _ _ _) as [[v|e]|]; intros [= <- _]; auto.
Qed.

Section Sim.
Context {M : Type}.
Notation env := (env M).
Notation hst := (hst M).

(** The two states differ in the last suggestion only. *)
Definition sim (s : hst) (t : st M) : Prop := set_sugg (view s) [] = set_sugg t [].

Lemma sim_fields s t : sim s t -> t = set_sugg (view s) (s_sugg t).
Proof. unfold sim. destruct t, s as [H a b c []]. unfold view. sproj in *. cbn [hs_heap hs_X hs_sugg hs_st]. sproj. intros [= ]. subst. reflexivity. Qed.
Lemma view_with_st (s : hst) (t : st M) : s_X t = rd (hs_heap s) (hs_X s) -> s_sugg t = rd (hs_heap s) (hs_sugg s) -> view (with_st s t) = t.
Proof. intros A B. unfold view, with_st. cbn [hs_heap hs_X hs_sugg hs_st]. rewrite <- A, <- B. destruct t; reflexivity. Qed.

Lemma update_model_sugg (E : env) s S : update_model E (set_sugg s S) = (set_sugg (fst (update_model E s)) S, snd (update_model E s)).
Proof.
  assert (SP : forall s, save_params E (set_sugg s S) = (set_sugg (fst (save_params E s)) S, snd (save_params E s))).
  { intros t. unfold save_params. sproj. destruct (e_params E (s_model t)) as [p|]; [|reflexivity]. destruct (s_params t) as [H|]; [|reflexivity].
    destruct (vstack H [p]); reflexivity. }
  unfold update_model. sproj. destruct (Z.eqb _ 0); [reflexivity|]. destruct (Z.eqb _ 0); [|apply SP].
  destruct (unzip_inputs _ _) as [Xm|e]; [|reflexivity]. destruct (s_Y s) as [Y|]; [|reflexivity]. destruct (normalized _ Y) as [Ym|e]; [|reflexivity].
  destruct (e_update E (s_model s) Xm Ym) as [m [e|]]; [reflexivity|]. rewrite <- SP. reflexivity.
Qed.
Lemma cne_sugg (E : env) s S p i : compute_next_evaluations E (set_sugg s S) p i =
  (set_sugg (fst (compute_next_evaluations E s p i)) S, snd (compute_next_evaluations E s p i)).
Proof.
  unfold compute_next_evaluations. sproj. destruct (context_manager _ _) as [cm|e]; [|reflexivity]. destruct (e_batch E _ _ cm) as [m r]. reflexivity.
Qed.
Lemma update_model_keeps (E : env) s s1 r : update_model E s = (s1, r) ->
  s_X s1 = s_X s /\ s_sugg s1 = s_sugg s /\ s_cost s1 = s_cost s /\ s_Y s1 = s_Y s /\ s_num s1 = s_num s.
Proof. intros U. apply update_model_spec in U as (m & p & V & -> & _). repeat split. Qed.

Lemma cost_fixed lg fit c x cs : is_time_cost c = false -> update_cost_model lg fit c x cs = (c, Ok tt).
Proof. destruct c; [reflexivity|discriminate|reflexivity|reflexivity]. Qed.

(** Nothing below [n] was written to. *)
Definition frame (n : nat) (H H' : heap) : Prop := n <= length H' /\ forall a, a < n -> rd H' a = rd H a.
Lemma frame_trans n H H1 H2 : n <= length H1 -> frame n H H1 -> frame (length H1) H1 H2 -> frame n H H2.
Proof. intros L (A & B) (C & D). split; [lia|]. intros a LA. rewrite D, B by lia. reflexivity. Qed.
Lemma frame_alloc H A : frame (length H) H (H ++ [A]).
Proof. split; [rewrite app_length; lia|]. intros a L. now apply rd_old. Qed.
Lemma frame_refl H : frame (length H) H H.
Proof. split; auto. Qed.

(** After a step an array of the object is the old one or a new one. *)
Definition old_or_new (n : nat) (a a' : ref) : Prop := a' = a \/ n <= a'.

Ltac hproj := cbn [with_st with_heap hs_heap hs_X hs_sugg hs_st hs_opt].
Ltac hproj_in H := cbn [with_st with_heap hs_heap hs_X hs_sugg hs_st hs_opt] in H.

Lemma sim_proj s t : sim s t -> s_hist t = s_hist (hs_st s) /\ s_tick t = s_tick (hs_st s) /\ s_num t = s_num (hs_st s) /\ s_cost t = s_cost (hs_st s) /\
  s_X t = rd (hs_heap s) (hs_X s) /\ s_Y t = s_Y (hs_st s) /\ s_report t = s_report (hs_st s) /\ s_model t = s_model (hs_st s) /\
  s_updates t = s_updates (hs_st s) /\ s_params t = s_params (hs_st s).
Proof. intros SM. apply sim_fields in SM. rewrite SM. repeat split. Qed.
Lemma sim_tick s t h k c n : sim s t -> sim (with_st s (set_num (set_cum (set_world (hs_st s) h k) c) n)) (set_num (set_cum (set_world t h k) c) n).
Proof. intros SM. apply sim_fields in SM. rewrite SM. destruct s as [H a b p []]. reflexivity. Qed.

Lemma eo_sim (E : env) o (s s' : hst) r : hs_sugg s < length (hs_heap s) -> hs_X s <> hs_sugg s -> is_time_cost (s_cost (hs_st s)) = false ->
  evaluate_objective_m E o s = (s', r) ->
  exists t', evaluate_objective E (plain o) (view s) = (t', r) /\ sim s' t' /\ length (hs_heap s') = length (hs_heap s) /\
    (forall a, a <> hs_sugg s -> rd (hs_heap s') a = rd (hs_heap s) a) /\ hs_X s' = hs_X s /\ hs_sugg s' = hs_sugg s /\ hs_opt s' = hs_opt s /\
    s_num (hs_st s') = s_num (hs_st s) /\ s_cost (hs_st s') = s_cost (hs_st s).
Proof.
  intros LS NE CT E0. unfold evaluate_objective_m in E0. unfold evaluate_objective.
  change (s_hist (view s)) with (s_hist (hs_st s)). change (s_tick (view s)) with (s_tick (hs_st s)). change (s_sugg (view s)) with (rd (hs_heap s) (hs_sugg s)).
  destruct (evaluate_m o (e_clock E) (hs_heap s) (s_hist (hs_st s)) (s_tick (hs_st s)) (hs_sugg s)) as [H2 [[h2 t2] r2]] eqn:EM.
  apply evaluate_m_spec in EM as (EQ & L2 & OT & _ & _ & _); [|auto]. rewrite <- EQ. cbn zeta in E0. hproj_in E0.
  destruct r2 as [[[ys cs]|e]|]; cycle 1.
  1,2: injection E0 as <- <-; eexists; split; [reflexivity|]; split; [|hproj; repeat split; auto];
    unfold sim, view; hproj; rewrite OT by auto; reflexivity.
  change (s_cost (set_ynew (set_world (hs_st s) h2 t2) (Some ys))) with (s_cost (hs_st s)) in E0. rewrite (cost_fixed _ _ _ _ _ CT) in E0.
  cbn zeta. change (s_cost (set_ynew (set_world (view s) h2 t2) (Some ys))) with (s_cost (hs_st s)). rewrite (cost_fixed _ _ _ _ _ CT).
  injection E0 as <- <-. eexists. split; [reflexivity|]. split; [|hproj; repeat split; auto].
  unfold sim, view. hproj. rewrite OT by auto. reflexivity.
Qed.

Lemma loop_sim (E : env) o mi mt eps z : forall fuel s t s' r,
  sim s t -> hs_X s < length (hs_heap s) -> hs_sugg s < length (hs_heap s) -> is_time_cost (s_cost (hs_st s)) = false ->
  loop_m fuel E o mi mt eps z s = (s', r) ->
  exists t', loop fuel E (plain o) mi mt eps z t = (t', r) /\ sim s' t' /\ frame (length (hs_heap s)) (hs_heap s) (hs_heap s') /\
    hs_X s' < length (hs_heap s') /\ hs_sugg s' < length (hs_heap s') /\ old_or_new (length (hs_heap s)) (hs_X s) (hs_X s') /\
    old_or_new (length (hs_heap s)) (hs_sugg s) (hs_sugg s') /\ s_num (hs_st s) <= s_num (hs_st s') /\
    (s_num (hs_st s) < s_num (hs_st s') -> length (hs_heap s) <= hs_X s' /\ length (hs_heap s) <= hs_sugg s') /\ hs_opt s' = hs_opt s.
Proof.
  induction fuel as [|fuel IH]; intros s t s' r SIM LX LS CT E0; [cbn in E0; injection E0 as <- <-|].
  { exists t. split; [reflexivity|]. split; [exact SIM|]. split; [apply frame_refl|]. repeat split; auto; try (left; reflexivity); lia. }
  pose proof (sim_fields _ _ SIM) as Q. set (S := s_sugg t) in *. clearbody S. subst t. clear SIM.
  cbn [loop_m] in E0. cbn [loop]. change (s_cum (set_sugg (view s) S)) with (s_cum (hs_st s)).
  assert (DONE : forall p, update_model E (view s) = p \/ p = (view s, Ok tt) -> forall S, sim (with_st s (fst p)) (set_sugg (fst p) S)).
  { intros p D S0. unfold sim. rewrite view_with_st; [reflexivity| |]; destruct D as [<-| ->]; try reflexivity;
    destruct (update_model E (view s)) as [t1 r1] eqn:U; apply update_model_keeps in U as (A & B & _); cbn [fst]; [exact A|exact B]. }
  destruct (time_left mt (s_cum (hs_st s))).
  2:{ injection E0 as <- <-. eexists. split; [reflexivity|]. split; [unfold sim; reflexivity|]. split; [apply frame_refl|]. repeat split; auto; try (left; reflexivity); lia. }
  rewrite update_model_sugg. destruct (update_model E (view s)) as [t1 r1] eqn:U. cbn [fst snd]. specialize (DONE (t1, r1) (or_introl eq_refl)). cbn [fst] in DONE.
  apply update_model_keeps in U as (UX & US & UC & UY & UN).
  assert (VT : view (with_st s t1) = t1) by (apply view_with_st; [exact UX|exact US]).
  change (s_num (view s)) with (s_num (hs_st s)) in UN. change (s_cost (view s)) with (s_cost (hs_st s)) in UC.
  assert (HALT : forall r0, (s', r) = (with_st s t1, r0) -> exists t', (set_sugg t1 S, r0) = (t', r) /\ sim s' t' /\
    frame (length (hs_heap s)) (hs_heap s) (hs_heap s') /\ hs_X s' < length (hs_heap s') /\ hs_sugg s' < length (hs_heap s') /\
    old_or_new (length (hs_heap s)) (hs_X s) (hs_X s') /\ old_or_new (length (hs_heap s)) (hs_sugg s) (hs_sugg s') /\
    s_num (hs_st s) <= s_num (hs_st s') /\ (s_num (hs_st s) < s_num (hs_st s') -> length (hs_heap s) <= hs_X s' /\ length (hs_heap s) <= hs_sugg s') /\
    hs_opt s' = hs_opt s).
  { intros r0 [= -> ->]. eexists. split; [reflexivity|]. split; [apply DONE|]. hproj. rewrite UN. split; [apply frame_refl|].
    repeat split; auto; try (left; reflexivity); lia. }
  destruct r1 as [[]|e]; [|destruct e; symmetry in E0; exact (HALT _ E0)].
  rewrite VT in E0. cbn zeta in E0. rewrite UN in E0. change (s_num (set_sugg t1 S)) with (s_num t1). rewrite UN. change (s_X (set_sugg t1 S)) with (s_X t1).
  destruct (iters_done mi (s_num (hs_st s)) || _); [symmetry in E0; exact (HALT _ E0)|].
  rewrite cne_sugg. destruct (compute_next_evaluations E t1 None None) as [t2 r2] eqn:CN. cbn [fst snd].
  apply cne_spec in CN as (m & ->).
  assert (HALT2 : forall r0, (s', r) = (with_st s (set_model t1 m), r0) -> exists t', (set_sugg (set_model t1 m) S, r0) = (t', r) /\ sim s' t' /\
    frame (length (hs_heap s)) (hs_heap s) (hs_heap s') /\ hs_X s' < length (hs_heap s') /\ hs_sugg s' < length (hs_heap s') /\
    old_or_new (length (hs_heap s)) (hs_X s) (hs_X s') /\ old_or_new (length (hs_heap s)) (hs_sugg s) (hs_sugg s') /\
    s_num (hs_st s) <= s_num (hs_st s') /\ (s_num (hs_st s) < s_num (hs_st s') -> length (hs_heap s) <= hs_X s' /\ length (hs_heap s) <= hs_sugg s') /\
    hs_opt s' = hs_opt s).
  { intros r0 [= -> ->]. eexists. split; [reflexivity|]. split; [|hproj; sproj; rewrite UN; split; [apply frame_refl|]; repeat split; auto; try (left; reflexivity); lia].
    unfold sim. rewrite view_with_st; [reflexivity|exact UX|exact US]. }
  destruct r2 as [[b|e]|]; [|symmetry in E0; exact (HALT2 _ E0)|symmetry in E0; exact (HALT2 _ E0)]. clear HALT HALT2.
  cbn [alloc hs_X hs_opt with_st] in E0. hproj_in E0. rewrite rd_old, rd_new in E0 by auto. cbn zeta. sproj. rewrite UX.
  change (s_X (view s)) with (rd (hs_heap s) (hs_X s)).
  destruct (vstack (rd (hs_heap s) (hs_X s)) b) as [X'|e] eqn:VS.
  2:{ injection E0 as <- <-. eexists. split; [reflexivity|]. split.
      { unfold sim, view. hproj. rewrite rd_old, rd_new by auto. change (rd (hs_heap s) (hs_X s)) with (s_X (view s)). rewrite <- UX. destruct t1; reflexivity. }
      hproj. sproj. rewrite UN, app_length. cbn [length]. split; [apply frame_alloc|]. repeat split; try lia; try (left; reflexivity). right. auto. }
  set (H1 := hs_heap s ++ [b]) in *. assert (L1 : length H1 = length (hs_heap s) + 1) by (unfold H1; now rewrite app_length).
  destruct (evaluate_objective_m E o _) as [s3 r3] eqn:EV.
  apply eo_sim in EV as (t3 & EO & SM3 & L3 & OT & X3 & S3 & O3 & N3 & C3); hproj; [|rewrite app_length; cbn; lia|lia|sproj; rewrite UC; exact CT].
  hproj_in L3. hproj_in OT. hproj_in X3. hproj_in S3. hproj_in O3. hproj_in N3. hproj_in C3. rewrite app_length in L3. cbn [length] in L3.
  match type of EO with evaluate_objective _ _ ?A = _ => assert (VW : A = set_X (set_sugg (set_model t1 m) b) X') end.
  { unfold view. hproj. rewrite rd_new, rd_old by lia. unfold H1. rewrite rd_new. reflexivity. }
  rewrite VW in EO. clear VW. change (set_sugg (set_sugg (set_model t1 m) S) b) with (set_sugg (set_model t1 m) b). rewrite EO. clear EO.
  assert (F3 : frame (length (hs_heap s)) (hs_heap s) (hs_heap s3)).
  { split; [lia|]. intros a LA. rewrite OT by lia. rewrite rd_old by lia. unfold H1. apply rd_old. exact LA. }
  change (s_num (set_model t1 m)) with (s_num t1) in N3. change (s_cost (set_model t1 m)) with (s_cost t1) in C3.
  destruct r3 as [[[]|e]|]; cycle 1.
  1,2: injection E0 as <- <-; exists t3; split; [reflexivity|]; split; [exact SM3|]; split; [exact F3|]; rewrite X3, S3, N3, O3, UN; 
    repeat split; try lia; right; lia.
  destruct (sim_proj _ _ SM3) as (PH & PT & PN & PC & _). rewrite PH, PT.
  match goal with |- exists _, loop fuel E (plain o) mi mt eps z ?T = _ /\ _ => pose proof (fun A B C D => IH _ T _ _ A B C D E0) as K end.
  hproj_in K. destruct K as (t' & LP & SM & FR & LX' & LS' & OX & OS & N1 & N2 & OO).
  { cbn [s_num set_cum set_world]. change (s_num (set_cum (set_world t3 (s_hist (hs_st s3)) (1 + s_tick (hs_st s3))) (e_clock E (s_tick (hs_st s3)) - z))) with (s_num t3).
    rewrite PN. apply sim_tick. exact SM3. }
  { lia. }
  { lia. }
  { change (is_time_cost (s_cost (hs_st s3)) = false). rewrite C3, UC. exact CT. }
  change (1 + s_num (hs_st s3) <= s_num (hs_st s')) in N1.
  exists t'. split; [exact LP|]. split; [exact SM|]. split; [apply (frame_trans _ _ (hs_heap s3)); [lia|exact F3|exact FR]|].
  split; [exact LX'|]. split; [exact LS'|].
  assert (NX : length (hs_heap s) <= hs_X s') by (destruct OX as [->|]; lia).
  assert (NS : length (hs_heap s) <= hs_sugg s') by (destruct OS as [->|]; lia).
  repeat split; [right; exact NX|right; exact NS|lia|exact NX|exact NS|congruence].
Qed.

Lemma compute_results_sugg (s : st M) S : compute_results (set_sugg s S) = (set_sugg (fst (compute_results s)) S, snd (compute_results s)).
Proof.
  unfold compute_results. change (s_Y (set_sugg s S)) with (s_Y s). change (s_X (set_sugg s S)) with (s_X s).
  destruct (s_Y s) as [Y|]; [|reflexivity]. destruct (argmin Y) as [i|]; [|reflexivity]. destruct (get (s_X s) i); [|reflexivity]. destruct (py_min Y); reflexivity.
Qed.
Lemma compute_results_keeps (s : st M) s1 r : compute_results s = (s1, r) -> s_X s1 = s_X s /\ s_sugg s1 = s_sugg s /\ s_num s1 = s_num s.
Proof.
  unfold compute_results. destruct (s_Y s) as [Y|]; [|intros [= <- _]; auto]. destruct (argmin Y) as [i|]; [|intros [= <- _]; auto].
  destruct (get (s_X s) i); [|intros [= <- _]; auto]. destruct (py_min Y); intros [= <- _]; auto.
Qed.

Lemma loop_with_objective (E : env) o p mi mt eps z : forall fuel s, loop fuel (with_objective E o) p mi mt eps z s = loop fuel E p mi mt eps z s.
Proof.
  induction fuel as [|fuel IH]; intros s; [reflexivity|]. cbn [loop]. destruct (time_left mt (s_cum s)); [|reflexivity].
  change (update_model (with_objective E o) s) with (update_model E s). destruct (update_model E s) as [s1 [[]|e]]; [|reflexivity].
  destruct (_ || _); [reflexivity|]. change (compute_next_evaluations (with_objective E o) s1 None None) with (compute_next_evaluations E s1 None None).
  destruct (compute_next_evaluations E s1 None None) as [s2 [[b|e]|]]; try reflexivity. cbn zeta. destruct (vstack _ b) as [X'|e]; [|reflexivity].
  change (evaluate_objective (with_objective E o)) with (evaluate_objective E). destruct (evaluate_objective E p _) as [s3 [[[]|e]|]]; try reflexivity. apply IH.
Qed.

Lemma run_sim (E : env) o s fuel mi mt eps ctx s' r : sound s -> s_Y (hs_st s) <> None -> is_time_cost (s_cost (hs_st s)) = false ->
  run_optimization_m fuel E o s mi mt eps ctx = (s', r) ->
  exists t', run_optimization fuel (with_objective E (plain o)) (view s) mi mt eps ctx = (t', r) /\ same_data (view s') t' /\
    frame (length (hs_heap s)) (hs_heap s) (hs_heap s') /\ sound s' /\
    (0 < s_num (hs_st s') -> length (hs_heap s) <= hs_X s' /\ length (hs_heap s) <= hs_sugg s').
Proof.
  intros (LX & LS) NY CT E0. unfold run_optimization_m, initial_evaluation_m in E0. cbn zeta in E0. hproj_in E0.
  unfold run_optimization, initial_evaluation. cbn [with_objective e_obj]. cbn zeta.
  change (s_Y (set_ctx (set_params (hs_st s) None) ctx)) with (s_Y (hs_st s)) in E0.
  change (s_Y (set_ctx (set_params (view s) None) ctx)) with (s_Y (hs_st s)). destruct (s_Y (hs_st s)) as [Y|] eqn:SY; [|congruence].
  match type of E0 with context [loop_m fuel E o ?a ?b ?c ?d ?e] => destruct (loop_m fuel E o a b c d e) as [s1 r1] eqn:LP end.
  match goal with |- context [loop fuel _ _ ?a ?b ?c ?d ?e] =>
    destruct (fun A B C D => loop_sim E o a b c d fuel _ e s1 r1 A B C D LP) as (t1 & LT & SM & FR & LX1 & LS1 & OX & OS & N1 & N2 & OO) end.
  { unfold sim, view. hproj. reflexivity. }
  { exact LX. }
  { exact LX. }
  { exact CT. }
  hproj_in N1. hproj_in N2. hproj_in FR. hproj_in OX. hproj_in OS.
  rewrite loop_with_objective. cbn [with_objective e_clock] in *. rewrite LT.
  assert (SD : forall s t, sim s t -> same_data (view s) t).
  { intros s0 t0 SM0. apply sim_proj in SM0 as (A1 & A2 & A3 & A4 & A5 & A6 & A7 & A8 & A9 & A10).
    unfold same_data. rewrite A1, A3, A5, A6, A7, A8, A9, A10. repeat split. }
  assert (NM : 0 < s_num (hs_st s1) -> length (hs_heap s) <= hs_X s1 /\ length (hs_heap s) <= hs_sugg s1) by (intros N; apply N2; exact N).
  destruct r1 as [[[]|e]|]; cycle 1.
  1,2: injection E0 as <- <-; exists t1; split; [reflexivity|]; split; [apply SD; exact SM|]; split; [exact FR|]; split; [split; assumption|]; exact NM.
  unfold compute_results_m in E0. pose proof (sim_fields _ _ SM) as TF. rewrite TF, compute_results_sugg.
  destruct (compute_results (view s1)) as [t2 r2] eqn:CR. cbn [fst snd]. apply compute_results_keeps in CR as (KX & KS & KN).
  injection E0 as <- <-. eexists. split; [reflexivity|]. split; [|hproj; split; [exact FR|]; split; [split; assumption|]; rewrite KN; exact NM].
  apply SD. unfold sim, view. hproj. change (rd (hs_heap s1) (hs_X s1)) with (s_X (view s1)). rewrite <- KX. destruct t2; reflexivity.
Qed.

(** ---------------------------------------------------------------- arrays the object does not use *)
Section Rel.
Context (G : ref -> Prop).
Definition agree (H1 H2 : heap) : Prop := length H1 = length H2 /\ forall a, ~ G a -> rd H1 a = rd H2 a.
Lemma agree_wr H1 H2 a A : agree H1 H2 -> agree (wr H1 a A) (wr H2 a A).
Proof.
  intros (L & R). split; [unfold wr; now rewrite !put_length|]. intros b NB. destruct (Nat.eq_dec a b) as [->|N]; [|rewrite !rd_wr_other by auto; auto].
  destruct (Nat.lt_ge_cases b (length H1)) as [LB|LB]; [rewrite !rd_wr_same by lia; reflexivity|].
  unfold rd, wr. rewrite !nth_overflow; rewrite ?put_length; auto; lia.
Qed.
Lemma agree_alloc H1 H2 A : agree H1 H2 -> agree (H1 ++ [A]) (H2 ++ [A]).
Proof.
  intros (L & R). split; [rewrite !app_length; lia|]. intros a N. unfold rd. destruct (Nat.lt_ge_cases a (length H1)) as [LB|LB].
  - rewrite !app_nth1 by lia. apply R; auto.
  - rewrite !app_nth2 by lia. now rewrite L.
Qed.
Lemma eval_rows_agree f clock a : ~ G a -> forall n H1 H2 h t i, agree H1 H2 ->
  snd (eval_rows_m f clock H1 h t a i n) = snd (eval_rows_m f clock H2 h t a i n) /\
  agree (fst (eval_rows_m f clock H1 h t a i n)) (fst (eval_rows_m f clock H2 h t a i n)).
Proof.
  intros NA. induction n as [|n IH]; intros H1 H2 h t i A; [split; auto|]. cbn [eval_rows_m]. rewrite (proj2 A a NA).
  destruct (f h _) as [x' r]. assert (A' : agree (wr_row H1 a i x') (wr_row H2 a i x')) by (unfold wr_row; rewrite (proj2 A a NA); now apply agree_wr).
  destruct r as [y|e]; [|split; auto].
  destruct (IH _ _ (h ++ [nth i (rd H2 a) []]) (S (S t)) (S i) A') as (P & Q).
  destruct (eval_rows_m f clock (wr_row H1 a i x') _ _ a (S i) n) as [K1 [[u1 v1] r1]]. destruct (eval_rows_m f clock (wr_row H2 a i x') _ _ a (S i) n) as [K2 [[u2 v2] r2]].
  cbn [fst snd] in P, Q. injection P as -> -> ->. destruct r2; split; auto.
Qed.
Lemma evaluate_agree o clock a H1 H2 h t : ~ G a -> agree H1 H2 ->
  snd (evaluate_m o clock H1 h t a) = snd (evaluate_m o clock H2 h t a) /\ agree (fst (evaluate_m o clock H1 h t a)) (fst (evaluate_m o clock H2 h t a)).
Proof.
  intros NA A. assert (F : snd (eval_func_m (om_fun o) clock H1 h t a) = snd (eval_func_m (om_fun o) clock H2 h t a) /\
    agree (fst (eval_func_m (om_fun o) clock H1 h t a)) (fst (eval_func_m (om_fun o) clock H2 h t a))).
  { unfold eval_func_m. rewrite (proj2 A a NA). destruct (eval_rows_agree (om_fun o) clock a NA (length (rd H2 a)) H1 H2 h t 0 A) as (P & Q).
    destruct (eval_rows_m _ clock H1 _ _ _ _ _) as [K1 [[u1 v1] r1]]. destruct (eval_rows_m _ clock H2 _ _ _ _ _) as [K2 [[u2 v2] r2]].
    cbn [fst snd] in P, Q. injection P as -> -> ->. destruct r2; split; auto. }
  unfold evaluate_m. rewrite (proj2 A a NA). destruct (eval_func_m (om_fun o) clock H1 h t a) as [K1 [[u1 v1] r1]]. destruct (eval_func_m (om_fun o) clock H2 h t a) as [K2 [[u2 v2] r2]].
  cbn [fst snd] in F. destruct F as (P & Q). injection P as -> -> ->.
  destruct (Nat.eqb _ _); [split; auto|]. destruct (parallel_evaluation _ _ _ _ _) as [[v|e]|]; split; auto.
Qed.

(** The two objects are the same, their memories agree outside of [G], and they do not use [G]. *)
Definition rel (s1 s2 : hst) : Prop :=
  hs_X s1 = hs_X s2 /\ hs_sugg s1 = hs_sugg s2 /\ hs_opt s1 = hs_opt s2 /\ hs_st s1 = hs_st s2 /\ agree (hs_heap s1) (hs_heap s2) /\
  ~ G (hs_X s2) /\ ~ G (hs_sugg s2) /\ (forall a, G a -> a < length (hs_heap s2)) /\ sound s2.
Lemma rel_view s1 s2 : rel s1 s2 -> view s1 = view s2.
Proof. intros (A & B & _ & C & D & X & Y & _ & _). unfold view. rewrite A, B, C, (proj2 D _ X), (proj2 D _ Y). reflexivity. Qed.
Lemma rel_st s1 s2 t : rel s1 s2 -> rel (with_st s1 t) (with_st s2 t).
Proof. unfold rel. hproj. tauto. Qed.
Lemma rel_heap s1 s2 H1 H2 : rel s1 s2 -> agree H1 H2 -> length H2 = length (hs_heap s2) -> rel (with_heap s1 H1) (with_heap s2 H2).
Proof. unfold rel. hproj. intros (A & B & C & D & F & X & Y & Z & SN) AG L. unfold sound in *. hproj. rewrite L. auto 12. Qed.

Definition rel2 (p q : hst * run unit) : Prop := rel (fst p) (fst q) /\ snd p = snd q.

Lemma eo_rel (E : env) o s1 s2 : rel s1 s2 -> rel2 (evaluate_objective_m E o s1) (evaluate_objective_m E o s2).
Proof.
  intros R. pose proof R as (A & B & C & D & F & X & Y & Z & SX & SS). unfold evaluate_objective_m. rewrite D, B.
  destruct (evaluate_agree o (e_clock E) (hs_sugg s2) (hs_heap s1) (hs_heap s2) (s_hist (hs_st s2)) (s_tick (hs_st s2)) Y F) as (P & Q).
  destruct (evaluate_m o (e_clock E) (hs_heap s1) _ _ _) as [K1 [[u1 v1] r1]]. destruct (evaluate_m o (e_clock E) (hs_heap s2) _ _ _) as [K2 [[u2 v2] r2]] eqn:E2.
  apply evaluate_m_length in E2. cbn [fst snd] in P, Q. injection P as -> -> ->. cbn zeta.
  assert (R' : rel (with_heap s1 K1) (with_heap s2 K2)) by (apply rel_heap; auto).
  destruct r2 as [[[ys cs]|e]|]; [|split; [apply rel_st; exact R'|reflexivity]|split; [apply rel_st; exact R'|reflexivity]].
  hproj. rewrite B, (proj2 Q _ Y). destruct (update_cost_model _ _ _ _ cs) as [c [[]|e]]; (split; [|reflexivity]); cbn [fst];
  apply (rel_st _ _ _ R').
Qed.

Lemma loop_rel (E : env) o mi mt eps z : forall fuel s1 s2, rel s1 s2 -> rel2 (loop_m fuel E o mi mt eps z s1) (loop_m fuel E o mi mt eps z s2).
Proof.
  induction fuel as [|fuel IH]; intros s1 s2 R; [split; auto|]. cbn [loop_m]. pose proof R as (A & B & C & D & F & X & Y & Z & SX & SS).
  rewrite (rel_view _ _ R), D. destruct (time_left mt (s_cum (hs_st s2))); [|split; auto].
  destruct (update_model E (view s2)) as [t1 r1]. pose proof (rel_st _ _ t1 R) as R1.
  destruct r1 as [[]|e]; [|destruct e; split; auto]. cbn zeta. rewrite (rel_view _ _ R1).
  destruct (iters_done mi (s_num t1) || _); [split; auto|].
  destruct (compute_next_evaluations E (view (with_st s2 t1)) None None) as [t2 r2]. pose proof (rel_st _ _ t2 R1) as R2.
  destruct r2 as [[b|e]|]; [|split; auto|split; auto]. hproj. cbn [alloc]. cbn zeta. hproj.
  assert (NL : ~ G (length (hs_heap s2))) by (intros I; apply Z in I; lia).
  assert (F1 : agree (hs_heap s1 ++ [b]) (hs_heap s2 ++ [b])) by (apply agree_alloc; auto).
  rewrite A, (proj1 F), (proj2 F1 _ X), (proj2 F1 _ NL).
  assert (R3 : rel (mk_hst M (hs_heap s1 ++ [b]) (hs_X s2) (length (hs_heap s2)) (hs_opt s1) t2) (mk_hst M (hs_heap s2 ++ [b]) (hs_X s2) (length (hs_heap s2)) (hs_opt s2) t2)).
  { unfold rel, sound. hproj. rewrite (app_length (hs_heap s2)). cbn [length]. repeat split; auto; try (apply F1); try lia. intros a I. apply Z in I. lia. }
  destruct (vstack _ _) as [X'|e]; [|split; auto].
  assert (NL2 : ~ G (length (hs_heap s2 ++ [b]))) by (intros I; apply Z in I; rewrite app_length in I; cbn in I; lia).
  assert (F2 : agree ((hs_heap s1 ++ [b]) ++ [X']) ((hs_heap s2 ++ [b]) ++ [X'])) by (apply agree_alloc; auto).
  assert (R4 : rel (mk_hst M ((hs_heap s1 ++ [b]) ++ [X']) (length (hs_heap s1 ++ [b])) (length (hs_heap s2)) (hs_opt s1) t2)
                   (mk_hst M ((hs_heap s2 ++ [b]) ++ [X']) (length (hs_heap s2 ++ [b])) (length (hs_heap s2)) (hs_opt s2) t2)).
  { unfold rel, sound. hproj. split; [apply F1|]. rewrite (app_length (hs_heap s2 ++ [b])). repeat split; auto; try (apply F2); rewrite ?app_length; cbn [length]; try lia. intros a I. apply Z in I. lia. }
  pose proof (eo_rel E o _ _ R4) as (R5 & Q). destruct (evaluate_objective_m E o _) as [s3 r3]. destruct (evaluate_objective_m E o _) as [s4 r4]. cbn [fst snd] in R5, Q. subst r4.
  destruct r3 as [[[]|e]|]; [|split; auto|split; auto]. pose proof R5 as (_ & _ & _ & D5 & _). rewrite D5. apply IH. apply rel_st. exact R5.
Qed.

Lemma initial_rel (E : env) o s1 s2 : rel s1 s2 -> rel2 (initial_evaluation_m E o s1) (initial_evaluation_m E o s2).
Proof.
  intros R. pose proof R as (A & B & C & D & F & X & Y & Z & SX & SS). unfold initial_evaluation_m. rewrite D, A. destruct (s_Y (hs_st s2)); [split; auto|].
  destruct (evaluate_agree o (e_clock E) (hs_X s2) (hs_heap s1) (hs_heap s2) (s_hist (hs_st s2)) (s_tick (hs_st s2)) X F) as (P & Q).
  destruct (evaluate_m o (e_clock E) (hs_heap s1) _ _ _) as [K1 [[u1 v1] r1]]. destruct (evaluate_m o (e_clock E) (hs_heap s2) _ _ _) as [K2 [[u2 v2] r2]] eqn:E2.
  apply evaluate_m_length in E2. cbn [fst snd] in P, Q. injection P as -> -> ->. cbn zeta.
  assert (R' : rel (with_heap s1 K1) (with_heap s2 K2)) by (apply rel_heap; auto).
  destruct r2 as [[[ys cs]|e]|]; [|split; [apply rel_st; exact R'|reflexivity]|split; [apply rel_st; exact R'|reflexivity]].
  hproj. rewrite A, (proj2 Q _ X). destruct (is_time_cost _); [|split; [apply (rel_st _ _ _ R')|reflexivity]].
  destruct (update_cost_model _ _ _ _ cs) as [c [[]|e]]; (split; [|reflexivity]); cbn [fst]; apply (rel_st _ _ _ R').
Qed.

Lemma run_rel (E : env) o fuel mi mt eps ctx s1 s2 : rel s1 s2 ->
  rel2 (run_optimization_m fuel E o s1 mi mt eps ctx) (run_optimization_m fuel E o s2 mi mt eps ctx).
Proof.
  intros R. unfold run_optimization_m. cbn zeta. pose proof R as (_ & _ & _ & D & _). rewrite D.
  pose proof (initial_rel E o _ _ (rel_st _ _ (set_ctx (set_params (hs_st s2) None) ctx) R)) as (R1 & Q1).
  destruct (initial_evaluation_m E o _) as [s3 r3]. destruct (initial_evaluation_m E o _) as [s4 r4]. cbn [fst snd] in R1, Q1. subst r4.
  destruct r3 as [[[]|e]|]; [|split; auto|split; auto]. pose proof R1 as (A & B & C & D1 & F & X & Y & Z & SX & SS). rewrite D1, A.
  match goal with |- rel2 (match loop_m _ _ _ ?a ?b ?c ?d ?x with _ => _ end) (match loop_m _ _ _ _ _ _ _ ?y with _ => _ end) =>
    assert (RL : rel2 (loop_m fuel E o a b c d x) (loop_m fuel E o a b c d y)) end.
  { apply loop_rel. unfold rel, sound. hproj. repeat split; auto; apply F. }
  destruct (loop_m fuel E o _ _ _ _ _) as [s5 r5]. destruct (loop_m fuel E o _ _ _ _ _) as [s6 r6]. destruct RL as (R2 & Q2). cbn [fst snd] in R2, Q2. subst r6.
  destruct r5 as [[[]|e]|]; [|split; auto|split; auto]. unfold compute_results_m. rewrite (rel_view _ _ R2).
  destruct (compute_results (view s6)) as [t7 r7]. pose proof R2 as (A2 & B2 & C2 & D2 & F2 & X2 & Y2 & Z2 & SX2 & SS2). split; [|reflexivity].
  cbn [fst]. unfold rel, sound. hproj. rewrite A2, C2. repeat split; auto; apply F2.
Qed.
End Rel.

Lemma agree_more (G G' : ref -> Prop) H1 H2 : (forall a, G a -> G' a) -> agree G H1 H2 -> agree G' H1 H2.
Proof. intros I (L & R). split; auto. Qed.
Lemma rel_alloc (got : list ref) s1 s2 b t : rel (fun a => In a got) s1 s2 ->
  rel (fun a => In a (got ++ [length (hs_heap s2)])) (with_st (with_heap s1 (hs_heap s1 ++ [b])) t) (with_st (with_heap s2 (hs_heap s2 ++ [b])) t).
Proof.
  intros (A & B & C & D & F & X & Y & Z & SX & SS). unfold rel, sound. hproj. rewrite (app_length (hs_heap s2)). cbn [length].
  split; [exact A|]. split; [exact B|]. split; [exact C|]. split; [reflexivity|].
  split; [apply (agree_more (fun a => In a got)); [intros a I; apply in_or_app; auto|apply agree_alloc; exact F]|].
  assert (N : forall x, ~ In x got -> x < length (hs_heap s2) -> ~ In x (got ++ [length (hs_heap s2)])).
  { intros x N L I. apply in_app_or in I as [I|[I|[]]]; [auto|lia]. }
  split; [apply N; auto|]. split; [apply N; auto|]. split; [|lia]. intros a I. apply in_app_or in I as [I|[<-|[]]]; [apply Z in I|]; lia.
Qed.

Lemma urun_rel (E : env) o : forall us got s1 s2 s1' got' l, rel (fun a => In a got) s1 s2 ->
  urun E o s1 got us = Some (s1', got', l) ->
  exists s2', urun E o s2 got (without_writes us) = Some (s2', got', l) /\ rel (fun a => In a got') s1' s2'.
Proof.
  induction us as [|u us IH]; intros got s1 s2 s1' got' l R U.
  { cbn in U. injection U as <- <- <-. exists s2. split; [reflexivity|exact R]. }
  cbn [urun] in U. destruct (ustep E o s1 got u) as [[[s3 got3] l3]|] eqn:ST; [|discriminate].
  destruct (urun E o s3 got3 us) as [[[s4 got4] l4]|] eqn:UR; [|discriminate]. injection U as <- <- <-.
  assert (K : forall s3', is_write u = false -> ustep E o s2 got u = Some (s3', got3, l3) -> rel (fun a => In a got3) s3 s3' ->
    exists s2', urun E o s2 got (without_writes (u :: us)) = Some (s2', got4, l3 ++ l4) /\ rel (fun a => In a got4) s4 s2').
  { intros s3' W ST' R3. destruct (IH _ _ _ _ _ _ R3 UR) as (s2' & U2 & R2). exists s2'. split; [|exact R2].
    unfold without_writes in *. cbn [filter]. rewrite W. cbn [negb urun]. rewrite ST', U2. reflexivity. }
  pose proof R as (A & B & C & D & F & X & Y & Z & SX & SS).
  destruct u as [fuel mi mt eps ctx|ctx p i| |k V]; cbn [ustep] in ST.
  - pose proof (run_rel _ E o fuel mi mt eps ctx _ _ R) as (R' & Q). destruct (run_optimization_m fuel E o s1 mi mt eps ctx) as [s5 r5].
    destruct (run_optimization_m fuel E o s2 mi mt eps ctx) as [s6 r6] eqn:RU. cbn [fst snd] in R', Q. subst r6.
    destruct r5 as [r5|]; [|discriminate]. injection ST as <- <- <-. apply (K s6); [reflexivity| |exact R']. cbn [ustep]. rewrite RU. reflexivity.
  - rewrite (rel_view _ _ _ R) in ST. destruct (suggest_next_locations E (view s2) ctx p i) as [t r] eqn:SG. destruct r as [[b|e]|]; [| |discriminate].
    + cbn [alloc] in ST. cbn zeta in ST. injection ST as <- <- <-. rewrite (proj1 F) in *. eapply K; [reflexivity| |apply rel_alloc; exact R].
      cbn [ustep]. rewrite SG. reflexivity.
    + injection ST as <- <- <-. apply (K (with_st s2 t)); [reflexivity| |apply rel_st; exact R]. cbn [ustep]. rewrite SG. reflexivity.
  - rewrite D in ST. destruct (s_Y (hs_st s2)) as [Y0|] eqn:SY.
    + cbn [alloc] in ST. cbn zeta in ST. injection ST as <- <- <-. rewrite A, (proj2 F _ X), (proj1 F) in *.
      eapply K; [reflexivity|cbn [ustep]; rewrite SY; reflexivity|].
      pose proof (rel_alloc got s1 s2 (rd (hs_heap s2) (hs_X s2)) (hs_st s2) R) as RA. rewrite <- D in RA at 1.
      unfold with_st, with_heap in RA. cbn [hs_heap hs_X hs_sugg hs_opt hs_st] in RA. exact RA.
    + injection ST as <- <- <-. apply (K s2); [reflexivity|cbn [ustep]; rewrite SY; reflexivity|exact R].
  - assert (RW : rel (fun a => In a got3) s3 s2 /\ got3 = got /\ l3 = []).
    { destruct (nth_error got k) as [a|] eqn:NK; injection ST as <- <- <-; (split; [|auto]); [|exact R].
      apply nth_error_In in NK. unfold rel. hproj. repeat split; auto; try apply SX; try apply SS.
      - unfold wr. rewrite put_length. apply F.
      - intros b NB. rewrite rd_wr_other by (intros ->; auto). apply F; auto. }
    destruct RW as (RW & -> & ->). destruct (IH _ _ _ _ _ _ RW UR) as (s2' & U2 & R2). exists s2'. split; [exact U2|exact R2].
Qed.

Lemma rel_refl (G : ref -> Prop) (s : hst) : sound s -> ~ G (hs_X s) -> ~ G (hs_sugg s) -> (forall a, G a -> a < length (hs_heap s)) -> rel G s s.
Proof. intros S X Y Z. unfold rel, agree. repeat split; auto; apply S. Qed.

(** Writing to arrays the object does not use has no effect on what is seen later. *)
Theorem writes_unseen (E : env) o s got us s' got' l : sound s -> (forall a, In a got -> a < length (hs_heap s) /\ a <> hs_X s /\ a <> hs_sugg s) ->
  urun E o s got us = Some (s', got', l) ->
  exists s2, urun E o s got (without_writes us) = Some (s2, got', l) /\ view s2 = view s'.
Proof.
  intros SN OW U. assert (R : rel (fun a => In a got) s s).
  { apply rel_refl; auto; [intros I; apply OW in I; tauto|intros I; apply OW in I; tauto|]. intros a I. apply OW in I. tauto. }
  destruct (urun_rel E o us got s s s' got' l R U) as (s2 & U2 & R2). exists s2. split; [exact U2|]. symmetry. eapply rel_view; eauto.
Qed.
End Sim.
