(** Runs of an objective that uses the optimizer, and a run that never ends. *)
From Coq Require Import String List ZArith QArith Qcanon Bool Lia.
From Verif.Model Require Import Py Space Design Optim Objective BO Reentrant.
From Verif.Spec Require Import Examples BOSpec BOExamples ReentrantSpec.
From Verif.Proof Require Import Num Dec BOP BOLoop BOMain BOMain2 ReentrantP.
Import ListNotations.
Local Open Scope nat_scope.

Lemma run_in_ok {M} fuel (E : env M) ask s mi mt eps ctx s' o : e_obj E = Some o -> run_in fuel E ask s mi mt eps ctx = (s', Some (Ok tt)) ->
  exists s1 s2 zt, initial_evaluation_in E o ask (set_ctx (set_params s None) ctx) = (s1, Some (Ok tt)) /\
    loop_in fuel E o ask (fst (stop_conditions mi mt)) (snd (stop_conditions mi mt)) eps zt
      (set_ynew (set_sugg (set_num (set_cum (set_world s1 (s_hist s1) (S (s_tick s1))) q0) 0) (s_X s1)) (s_Y s1)) = (s2, Some (Ok tt)) /\
    s' = set_report s2 (s_report s').
Proof.
  intros O. unfold run_in. rewrite O. cbv zeta. destruct (initial_evaluation_in E o ask _) as [s1 [[[]|e]|]] eqn:I; try discriminate.
  destruct (loop_in _ _ _ _ _ _ _ _ _) as [s2 [[[]|e]|]] eqn:L; try discriminate. destruct (compute_results s2) as [s3 r] eqn:C. intros [= <- ->].
  apply compute_results_spec in C as [C _]. eauto 10.
Qed.

Theorem run_in_data {M} fuel (E : env M) ask s mi mt eps ctx s' o : e_obj E = Some o -> run_in fuel E ask s mi mt eps ctx = (s', Some (Ok tt)) ->
  exists new ys, s_X s' = s_X s ++ new /\ s_Y s' = Some (values_so_far s ++ ys) /\ length ys = length (pending_rows s ++ new) /\
    (o_procs o = 1 -> answers (o_fun o) (s_hist s) (pending_rows s ++ new) ys /\ s_hist s' = s_hist s ++ pending_rows s ++ new) /\
    (stateless (o_fun o) -> 1 <= o_procs o -> values_at (o_fun o) (pending_rows s ++ new) ys).
Proof.
  intros O H. destruct (run_in_ok _ _ _ _ _ _ _ _ _ _ O H) as (s1 & s2 & zt & I & L & ->).
  destruct (initial_in _ _ _ _ _ _ I) as (X1 & K & _). destruct (K eq_refl) as (ys1 & Y1 & L1 & A1 & V1 & _). clear K.
  change (values_so_far (set_ctx (set_params s None) ctx)) with (values_so_far s) in *. change (pending_rows (set_ctx (set_params s None) ctx)) with (pending_rows s) in *. sproj in *.
  destruct (loop_in_data _ _ _ _ _ _ _ _ _ _ _ L Y1) as (new & ys & X2 & Y2 & L2 & A2 & V2). sproj in *.
  exists new, (ys1 ++ ys). rewrite X2, X1, Y2, app_assoc. split; [reflexivity|]. split; [reflexivity|]. split; [rewrite !app_length; lia|]. split.
  - intros P. destruct (A1 P) as [B1 B2]. destruct (A2 P) as [B3 B4]. rewrite B2 in *. split; [now apply answers_app | now rewrite B4, app_assoc].
  - intros Sl P. apply Forall2_app; [now apply V1 | now apply V2].
Qed.

Theorem run_in_limit {M} fuel (E : env M) ask s mi mt eps ctx s' o q : e_obj E = Some o -> o_procs o = 1 -> always_asks ask -> iteration_limit mi mt q -> (1 < q)%Qc ->
  run_in fuel E ask s mi mt eps ctx = (s', Some (Ok tt)) ->
  (exists t, time_limit mt t /\ (t <= s_cum s')%Qc) \/ (exists pre a b, s_X s' = pre ++ [b; a] /\ within_eps eps a b) \/
  (exists m Xm Ym U, s_updates s' = U ++ [(s_num s', Xm, Ym)] /\ snd (e_update E m Xm Ym) = Some LinAlgError).
Proof.
  intros O P A IL Q H. destruct (run_in_ok _ _ _ _ _ _ _ _ _ _ O H) as (s1 & s2 & zt & I & L & ->).
  assert (F : fst (stop_conditions mi mt) = Some q).
  { destruct IL as [->|(-> & -> & ->)]; [destruct mt; reflexivity | exfalso; apply (Qclt_not_le _ _ Q); discriminate]. }
  rewrite F in L. apply loop_in_limit in L as [_ L]; [|assumption..|sproj; lia]. sproj. destruct L as [T|L]; [|right; exact L]. left.
  unfold time_left in T. destruct (snd (stop_conditions mi mt)) as [t|] eqn:St; [|discriminate]. exists t. split; [now apply limit_time with (mi := mi)|].
  apply Qcnot_lt_le. intros N. apply qclt_spec in N. congruence.
Qed.

Theorem run_in_context {M} fuel (E : env M) ask s mi mt eps ctx s' o c : e_obj E = Some o -> o_procs o = 1 -> always_asks ask -> asks_with c ask ->
  run_in fuel E ask s mi mt eps ctx = (s', Some (Ok tt)) -> s_hist s' <> s_hist s -> s_ctx s' = c.
Proof.
  intros O P A C H. destruct (run_in_ok _ _ _ _ _ _ _ _ _ _ O H) as (s1 & s2 & zt & I & L & ->). sproj. intros N. sproj in *.
  destruct (initial_in _ _ _ _ _ _ I) as (X1 & K & _). destruct (K eq_refl) as (ys1 & _ & _ & _ & _ & C1). sproj in *. specialize (C1 c A C P).
  destruct (loop_in_context _ _ _ _ _ _ _ c A C P _ _ _ L) as [[L1 L2]|L1]; [|exact L1]. sproj in *. destruct C1 as [[C1 C2]|C1].
  - exfalso. apply N. rewrite L2. exact C2.
  - rewrite L1. exact C1.
Qed.

Theorem run_in_one {M} fuel (E : env M) ask s mi mt eps ctx o q : e_obj E = Some o -> parts_return E o -> o_procs o = 1 -> iteration_limit mi mt q -> (q <= 1)%Qc -> 2 <= fuel ->
  snd (run_in fuel E ask s mi mt eps ctx) <> None /\
  forall s', run_in fuel E ask s mi mt eps ctx = (s', Some (Ok tt)) -> s_X s' = s_X s \/ s_X s' = s_X s ++ s_sugg s'.
Proof.
  intros O PR P IL Q F. assert (S1 : fst (stop_conditions mi mt) = Some q) by (destruct IL as [->|(-> & -> & ->)]; [destruct mt; reflexivity | reflexivity]). split.
  - unfold run_in. rewrite O. cbv zeta. destruct (initial_evaluation_in E o ask _) as [s1 r] eqn:I. destruct (initial_in _ _ _ _ _ _ I) as (_ & _ & K). specialize (K PR P).
    destruct r as [[[]|e]|]; [|discriminate|now destruct K]. rewrite S1.
    match goal with |- context [loop_in _ _ _ _ _ ?t _ ?zt ?sx] => pose proof (loop_in_one E o ask t eps zt q fuel sx PR P Q eq_refl F) as [N _]; destruct (loop_in fuel E o ask (Some q) t eps zt sx) as [s2 [[[]|e]|]] end; [|discriminate|now destruct N].
    destruct (compute_results s2). discriminate.
  - intros s' H. destruct (run_in_ok _ _ _ _ _ _ _ _ _ _ O H) as (s1 & s2 & zt & I & L & ->). rewrite S1 in L. destruct (initial_in _ _ _ _ _ _ I) as (X1 & _ & _). sproj in *.
    match type of L with loop_in _ _ _ _ _ ?t _ _ ?sx = _ => pose proof (proj2 (loop_in_one E o ask t eps zt q fuel sx PR P Q eq_refl F) _ L) as [_ N] end. sproj in *. now rewrite X1 in N.
Qed.

(** a call made while rows are evaluated meets rows without values *)
Theorem refused {M} (E : env M) s Y b c p i : rejects_mismatch E -> s_Y s = Some Y -> aligned (s_X s) Y -> b <> [] ->
  exists s' e, suggest_next_locations E (set_X s (s_X s ++ b)) c p i = (s', Some (Raise e)).
Proof.
  intros RM HY AL NE. unfold suggest_next_locations. cbv zeta. set (s1 := set_ctx _ _).
  destruct (mismatch_update E s1 Y RM HY) as (s2 & e & U & _).
  - unfold s1. sproj. intros K. apply app_eq_nil in K as [_ K]. now apply NE.
  - unfold s1. sproj. rewrite app_length. unfold aligned in AL. destruct b; [now destruct NE|]. cbn [length]. unfold mat, vec in *. lia.
  - reflexivity.
  - rewrite U. eauto.
Qed.

(** ------------------------------------------------------------ a run that never ends *)
Definition narrow (X : mat) : Prop := Forall (fun r : vec => length r = 1) X.
Definition fit (s : st nat) : Prop := exists Y, s_Y s = Some Y /\ length (s_X s) = length Y /\ narrow (s_X s) /\ s_X s <> [] /\ s_cost s = CostConstant /\
  s_num s <= 1 /\ s_ctx s = None /\ narrow (hist_rows (s_params s)).
Lemma narrow_stack A B : narrow A -> narrow B -> vstack A B = Ok (A ++ B).
Proof.
  intros HA HB. unfold vstack, widths_agree. assert (H : narrow (A ++ B)) by (apply Forall_app; auto). destruct (A ++ B) as [|r t]; [reflexivity|].
  inversion H as [|? ? H1 H2]; subst. replace (forallb _ t) with true; [reflexivity|]. symmetry. apply forallb_forall. intros x Hx. apply Nat.eqb_eq. unfold narrow in H2. rewrite Forall_forall in H2. rewrite (H2 x Hx), H1. reflexivity.
Qed.
Lemma narrow_unzip X : narrow X -> X <> [] -> unzip_inputs line X = Ok X.
Proof.
  intros H NE. unfold unzip_inputs. change (has_bandit line) with false. cbv iota. replace (mapM (objective_to_model line) X) with (Ok X).
  - cbn [bind]. destruct X; [now destruct NE|reflexivity].
  - clear NE. induction H as [|r X Hr H IH]; [reflexivity|]. cbn [mapM]. destruct r as [|a [|]]; try discriminate. rewrite <- IH. reflexivity.
Qed.
Notation T := (toy 1 (Some obj1)).
Lemma toy_update s Y : s_Y s = Some Y -> narrow (s_X s) -> s_X s <> [] -> narrow (hist_rows (s_params s)) ->
  update_model T s = if Nat.eqb (length (s_X s)) (length Y)
                     then (set_params (add_update s (s_X s) Y) (Some (hist_rows (s_params s) ++ [[nat2q (s_model s)]])), Ok tt)
                     else (set_model (add_update s (s_X s) Y) (s_model s), Raise ValueError).
Proof.
  intros HY HX NE HP. unfold update_model. change (e_interval T) with 1%Z. cbv iota. rewrite Z.mod_1_r. change (Z.eqb 1 0) with false. change (Z.eqb 0 0) with true. cbv iota.
  change (e_space T) with line. rewrite narrow_unzip by assumption. rewrite HY. change (normalized (e_norm T) Y) with (Ok Y). cbv beta iota zeta.
  change (e_update T (s_model (add_update s (s_X s) Y)) (s_X s) Y) with (s_model s, if Nat.eqb (length (s_X s)) (length Y) then None else Some ValueError).
  destruct (Nat.eqb (length (s_X s)) (length Y)); [|reflexivity]. unfold save_params. change (e_params T (s_model (set_model (add_update s (s_X s) Y) (s_model s)))) with (Some [nat2q (s_model s)]).
  sproj. destruct (s_params s) as [H|] eqn:P; cbn [hist_rows] in *; [|reflexivity]. rewrite narrow_stack; [reflexivity | exact HP | repeat constructor].
Qed.
Lemma toy_turn zt s : fit s -> exists s3, fit s3 /\ length (s_X s3) = S (length (s_X s)) /\ s_hist s3 <> s_hist s /\
  forall fuel, loop_in (S fuel) T obj1 curious (Some (z 2)) None (z (-1)) zt s = loop_in fuel T obj1 curious (Some (z 2)) None (z (-1)) zt s3.
Proof.
  intros (Y & HY & HL & HN & NE & HC & Hn & Hx & HP). cbn [loop_in time_left].
  rewrite (toy_update s Y HY HN NE HP), HL, Nat.eqb_refl. cbv beta iota.
  set (s1 := set_params _ _).
  assert (ID : iters_done (Some (z 2)) (s_num s1) = false) by (unfold s1; sproj; destruct (s_num s) as [|[|k]]; [reflexivity.. | lia]). rewrite ID. cbn [orb].
  assert (CL : Nat.ltb 1 (length (s_X s1)) && last_two_close (z (-1)) (s_X s1) = false).
  { apply andb_false_iff. right. unfold last_two_close. destruct (rev (s_X s1)) as [|a [|b l]]; reflexivity. } rewrite CL.
  assert (CN : compute_next_evaluations T s1 None None = (set_model s1 (S (s_model s)), Some (Ok [[nat2q (S (s_model s))]]))).
  { unfold compute_next_evaluations. change (s_ctx s1) with (s_ctx s). rewrite Hx. destruct (context_manager (e_space T) None) as [cm|e] eqn:CM; [|vm_compute in CM; discriminate]. reflexivity. }
  rewrite CN. cbv beta iota zeta. set (row := [nat2q (S (s_model s))]). assert (Nr : narrow [row]) by (repeat constructor).
  change (s_X (set_sugg (set_model s1 (S (s_model s))) [row])) with (s_X s). rewrite (narrow_stack _ _ HN Nr). unfold evaluate_objective_in. set (s2 := set_X _ _).
  assert (HN2 : narrow (s_X s ++ [row])) by (apply Forall_app; auto).
  set (v := ((nat2q (S (s_model s)) - z 3) * (nat2q (S (s_model s)) - z 3))%Qc).
  assert (Ev : evaluate obj1 (e_clock T) (s_hist s2) (s_tick s2) (s_sugg s2) = (s_hist s ++ [row], S (S (s_tick s)), Some (Ok ([v], CList [(nat2q (S (s_tick s)) - nat2q (s_tick s))%Qc])))) by reflexivity.
  assert (D : exists s2', during T obj1 curious s2 (s_sugg s2) = (s2', true) /\ s_X s2' = s_X s ++ [row] /\ s_Y s2' = Some Y /\ s_cost s2' = CostConstant /\ s_num s2' = 0 /\ s_ctx s2' = None /\ s_params s2' = None /\
    s_hist s2' = s_hist s /\ s_tick s2' = s_tick s /\ s_sugg s2' = [row]).
  { unfold during. rewrite Ev. change (s_hist s2) with (s_hist s). rewrite skipn_app, skipn_all, Nat.sub_diag. cbn [skipn app meddle]. change (curious (s_hist s) row) with (Some (@None (list (string * Qc)), @None mat, @None mat)). cbv beta iota.
    unfold suggest_next_locations. cbv zeta. set (s4 := set_ctx _ _). rewrite (toy_update s4 Y HY HN2); [|destruct (s_X s); discriminate | constructor].
    replace (Nat.eqb (length (s_X s4)) (length Y)) with false by (symmetry; apply Nat.eqb_neq; unfold s4, s2; sproj; rewrite app_length; cbn [length]; unfold mat, vec in *; lia).
    cbv beta iota. eexists. split; [reflexivity|]. unfold s4, s2, s1. sproj. auto 10. }
  destruct D as (s2' & -> & DX & DY & DC & DN & Dc & DP & DH & DT & DS). unfold evaluate_objective. rewrite DH, DT, DS.
  change (evaluate obj1 (e_clock T) (s_hist s) (s_tick s) [row]) with (evaluate obj1 (e_clock T) (s_hist s2) (s_tick s2) (s_sugg s2)). rewrite Ev. cbv beta iota zeta. sproj. rewrite DC, DS. cbn [update_cost_model]. cbv beta iota zeta. sproj.
  eexists. split; [|split; [|split; [|intros fuel; reflexivity]]].
  - exists (Y ++ [v]). sproj. rewrite DX, DY, DN, Dc, DP. rewrite !app_length. cbn [length hist_rows]. split; [reflexivity|]. split; [unfold mat, vec in *; lia|]. split; [exact HN2|]. split; [destruct (s_X s); discriminate|].
    split; [reflexivity|]. split; [lia|]. split; [reflexivity|constructor].
  - sproj. rewrite DX, app_length. cbn [length]. lia.
  - sproj. intros K. apply (f_equal (@length vec)) in K. rewrite app_length in K. cbn [length] in K. lia.
Qed.
Lemma toy_endless zt : forall fuel s, fit s -> exists s', loop_in fuel T obj1 curious (Some (z 2)) None (z (-1)) zt s = (s', None) /\ length (s_X s') = fuel + length (s_X s).
Proof.
  induction fuel as [|fuel IH]; intros s F; [exists s; auto|]. destruct (toy_turn zt s F) as (s3 & F3 & L3 & _ & K). rewrite K. destruct (IH s3 F3) as (s' & -> & L'). exists s'. split; [reflexivity|]. lia.
Qed.
Definition start : st nat := set_ctx (set_params (fresh None) None) None.
Lemma begun_ok : let b := initial_evaluation_in T obj1 curious start in snd b = Some (Ok tt) /\ s_cost (fst b) = CostConstant /\ s_ctx (fst b) = None /\ s_params (fst b) = None.
Proof. repeat split; vm_compute; reflexivity. Qed.
Lemma begun_fit s0 s1 : initial_evaluation_in T obj1 curious start = (s0, Some (Ok tt)) -> s_cost s0 = CostConstant -> s_ctx s0 = None -> s_params s0 = None ->
  s_X s1 = s_X s0 -> s_Y s1 = s_Y s0 -> s_cost s1 = s_cost s0 -> s_ctx s1 = s_ctx s0 -> s_params s1 = s_params s0 -> s_num s1 = 0 ->
  fit s1 /\ length (s_X s1) = 2.
Proof.
  intros B C c P EX EY EC Ec EP EN. apply initial_in in B as (X0 & K & _). destruct (K eq_refl) as (ys & Y0 & L & _). clear K.
  assert (S0 : s_X start = [[z 0]; [z (-1)]]) by reflexivity. assert (P0 : pending_rows start = s_X start) by reflexivity. assert (V0 : values_so_far start = []) by reflexivity.
  rewrite P0, S0 in L. rewrite V0 in Y0. cbn [app] in Y0. rewrite S0 in X0. clear P0 S0 V0. rewrite X0 in EX. rewrite Y0 in EY. rewrite EX. split; [|reflexivity]. exists ys.
  rewrite EX, EY, EC, Ec, EP, EN, C, c, P. cbn [hist_rows]. split; [reflexivity|]. split; [now rewrite L|]. split; [repeat constructor|]. split; [discriminate|]. split; [reflexivity|]. split; [lia|]. split; [reflexivity|constructor].
Qed.
Lemma endless_from fuel s0 : initial_evaluation_in T obj1 curious start = (s0, Some (Ok tt)) -> s_cost s0 = CostConstant -> s_ctx s0 = None -> s_params s0 = None ->
  exists s', run_in fuel T curious (fresh None) (LFin (z 2)) LNone (z (-1)) None = (s', None) /\ length (s_X s') = fuel + 2.
Proof.
  intros B C c P. unfold run_in. change (e_obj T) with (Some obj1). cbv beta iota zeta. fold start. rewrite B. cbv beta iota zeta.
  change (fst (stop_conditions (LFin (z 2)) LNone)) with (Some (z 2)). change (snd (stop_conditions (LFin (z 2)) LNone)) with (@None Qc).
  match goal with |- context [loop_in _ _ _ _ _ _ _ ?zt ?sx] => set (t0 := zt); set (s1 := sx) end. destruct (begun_fit s0 s1 B C c P) as [F L]; try reflexivity.
  destruct (toy_endless t0 fuel s1 F) as (s' & -> & L'). exists s'. split; [reflexivity|]. rewrite L'. now rewrite L.
Qed.
Theorem endless : forall fuel, exists s', run_in fuel T curious (fresh None) (LFin (z 2)) LNone (z (-1)) None = (s', None) /\ length (s_X s') = fuel + 2.
Proof.
  intros fuel. destruct begun_ok as (R & C & c & P). destruct (initial_evaluation_in T obj1 curious start) as [s0 r] eqn:B. cbn [fst snd] in *. subst r. exact (endless_from fuel s0 B C c P).
Qed.
