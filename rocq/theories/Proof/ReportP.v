(** Proofs about reports and tables. *)
From Coq Require Import String List ZArith QArith Qcanon Bool Arith Lia.
From Verif.Model Require Import Py Space Design Optim Objective BO Report.
From Verif.Spec Require Import SpaceSpec BOSpec ReportSpec.
From Verif.Proof Require Import Num SpaceP DesignP BOP BOLoop BOMain BOMain2 BOExtra.
Import ListNotations.
Local Open Scope nat_scope.
Local Open Scope string_scope.
Local Open Scope list_scope.

Lemma mapM_positions (p : kind -> bool) vs : forall pre,
  exists ls, mapM (fun i => v <- get (pre ++ vs) i ;; Ok (if p (x_kind v) then [i] else [])) (seq (length pre) (length vs)) = Ok ls /\
    length (concat ls) = number_of p (map x_kind vs).
Proof.
  induction vs as [|v t IH]; intros pre; simpl; [eexists; split; reflexivity|].
  unfold get at 1. rewrite nth_error_app2, Nat.sub_diag by lia. simpl. destruct (IH (pre ++ [v])) as (ls & H & L).
  rewrite app_length in H. simpl in H. rewrite Nat.add_1_r, <- app_assoc in H. simpl in H. rewrite H. simpl. eexists. split; [reflexivity|].
  unfold number_of in *. simpl. rewrite app_length, L. destruct (p (x_kind v)); reflexivity.
Qed.
Lemma dims_of_ok p sp : sp_dim sp = length (sp_xvars sp) -> exists ds, dims_of p sp = Ok ds /\ length ds = number_of p (kinds sp).
Proof.
  intros E. unfold dims_of. rewrite E. destruct (mapM_positions p (sp_xvars sp) []) as (ls & H & L). simpl in H. rewrite H. exists (concat ls). split; [reflexivity|exact L].
Qed.
Lemma mapM_raise {A B} (f : A -> res B) l a t e : (forall x, In x l -> exists b, f x = Ok b) -> f a = Raise e -> mapM f (l ++ a :: t) = Raise e.
Proof.
  intros H F. induction l as [|x l IH]; simpl; [now rewrite F|]. destruct (H x (or_introl eq_refl)) as [b ->]. simpl. rewrite IH; [reflexivity|]. intros y I. apply H. now right.
Qed.
Lemma dims_of_short p sp : length (sp_xvars sp) < sp_dim sp -> dims_of p sp = Raise IndexError.
Proof.
  intros L. unfold dims_of. replace (sp_dim sp) with (length (sp_xvars sp) + S (sp_dim sp - length (sp_xvars sp) - 1)) by lia.
  rewrite seq_app. simpl seq. rewrite mapM_raise with (e := IndexError); [reflexivity| |].
  - intros i I. apply in_seq in I. unfold get. destruct (nth_error (sp_xvars sp) i) eqn:N; [eexists; reflexivity|]. apply nth_error_None in N. lia.
  - unfold get. rewrite (proj2 (nth_error_None _ _)) by lia. reflexivity.
Qed.
Lemma write_ok ls ws : Forall2 (fun r w => r = Ok w) ls ws -> write ls = (ws, None).
Proof. induction 1 as [|r w ls ws E _ IH]; [reflexivity|]. subst r. simpl. now rewrite IH. Qed.

Section Report.
Context {M : Type}.
Implicit Types s : st M.

(** the report of a finished run *)
Definition expected (u : setup) sp s (eps : Qc) (done : bool) (m : Qc) (x : vec) : list line :=
   [("GPyOpt Version", [FVersion]); ("Date and time:", [FDate]);
    ("Optimization completed:", [FStr (if done then "YES" else "NO"); FNat (length (s_X s))]);
    ("Number initial samples:", [FNat (u_numdata u)]); ("Tolerance:", [FQ eps]); ("Optimization time:", [FQ (s_cum s)]);
    ("Problem name:", [FStr (u_name u)]); ("Problem dimension:", [FNat (sp_dim sp)]);
    ("Number continuous variables", [FNat (number_of is_continuous (kinds sp))]);
    ("Number discrete variables", [FNat (number_of is_discrete (kinds sp))]);
    ("Number bandits", [FNat (length (get_bandit sp))]);
    ("Noiseless evaluations:", [FBool (u_exact u)]); ("Cost used:", [FStr (cost_type (s_cost s))]); ("Constraints:", [FBool false]);
    ("Normalized outputs:", [FBool (u_norm u)]); ("Model type:", [FStr (u_model u)]); ("Model update interval:", [FInt (u_interval u)]);
    ("Acquisition type:", [FStr (u_acquisition u)]); ("Acquisition optimizer:", [FStr (u_optimizer u)]);
    ("Acquisition type:", [FStr (u_acquisition u)]); ("Acquisition optimizer:", [FStr (u_optimizer u)]);
    ("Evaluator type (batch size):", [FStr (u_evaluator u); FNat (u_batch u)]); ("Cores used:", [FNat (u_cores u)]);
    ("Value at minimum:", [FQ m]); ("Best found minimum location:", [FRow x])].
Lemma report_bayesian u sp s eps mi mt Y i m x : sp_dim sp = length (sp_xvars sp) -> s_Y s = Some Y -> argmin Y = Some i -> py_min Y = Ok m ->
  nth_error (s_X s) i = Some x ->
  save_report (object Bayesian u sp s (Some (eps, (mi, mt)))) =
    (expected u sp s eps (match mi with Some q => qceq (nat2q (s_num s)) q | None => false end) m x, None).
Proof.
  intros D HY HA HM HX. destruct (dims_of_ok is_continuous sp D) as (dc & DC & LC). destruct (dims_of_ok is_discrete sp D) as (dd & DD & LD).
  assert (AY : attr (object Bayesian u sp s (Some (eps, (mi, mt)))) "Y" = Ok (PCol Y)) by (unfold object, bo_attrs; rewrite HY; reflexivity).
  unfold save_report. apply write_ok. repeat (constructor; [|]); try reflexivity.
  - cbn -[qceq nat2q]. destruct mi; reflexivity.
  - change (d <- get_continuous_dims sp ;; Ok ("Number continuous variables", [FNat (length d)]) = Ok ("Number continuous variables", [FNat (number_of is_continuous (kinds sp))])).
    unfold get_continuous_dims. rewrite DC. cbn [bind]. now rewrite LC.
  - change (d <- get_discrete_dims sp ;; Ok ("Number discrete variables", [FNat (length d)]) = Ok ("Number discrete variables", [FNat (number_of is_discrete (kinds sp))])).
    unfold get_discrete_dims. rewrite DD. cbn [bind]. now rewrite LD.
  - cbn. destruct (u_constraints u); reflexivity.
  - rewrite AY. cbn [bind]. now rewrite HM.
  - rewrite AY. change (attr (object Bayesian u sp s (Some (eps, (mi, mt)))) "X") with (Ok (PMat (s_X s))). cbn [bind]. rewrite HA. unfold get. rewrite HX. reflexivity.
  - constructor.
Qed.
Lemma report_index u sp s eps lims : length (sp_xvars sp) < sp_dim sp ->
  exists w, save_report (object Bayesian u sp s (Some (eps, lims))) = (w, Some IndexError) /\ length w = 8.
Proof.
  intros L. unfold save_report.
  assert (G : get_continuous_dims sp = Raise IndexError) by (apply dims_of_short, L).
  change (the_space_of (PSpace sp)) with (Ok sp).
  eexists. split.
  - cbn -[get_continuous_dims get_discrete_dims qceq nat2q same_number]. rewrite G. reflexivity.
  - reflexivity.
Qed.
Lemma report_modular u sp s eps lims :
  exists w, save_report (object Modular u sp s (Some (eps, lims))) = (w, Some AttributeError) /\ map fst w = ["GPyOpt Version"; "Date and time:"; "Optimization completed:"].
Proof. eexists. split; [cbn -[qceq nat2q same_number]; reflexivity|reflexivity]. Qed.
Lemma report_before_run c u sp s :
  exists w, save_report (object c u sp s None) = (w, Some AttributeError) /\ map fst w = ["GPyOpt Version"; "Date and time:"].
Proof. destruct c; eexists; (split; [cbn -[qceq nat2q same_number]; reflexivity|reflexivity]). Qed.
End Report.

Lemma shows_intro (w : list line) l vs : In (l, vs) w -> Forall (fun p => fst p = l -> snd p = vs) w -> shows w l vs.
Proof. intros I F. split; [exact I|]. intros vs' I'. rewrite Forall_forall in F. exact (F _ I' eq_refl). Qed.
Ltac shown := apply shows_intro; [cbn; tauto|repeat constructor; cbn; solve [discriminate|reflexivity]].
Lemma expected_shows {M} (u : setup) sp (s : st M) eps b m x :
  shows (expected u sp s eps b m x) "Value at minimum:" [FQ m] /\ shows (expected u sp s eps b m x) "Best found minimum location:" [FRow x] /\
  shows (expected u sp s eps b m x) "Optimization completed:" [FStr (if b then "YES" else "NO"); FNat (length (s_X s))] /\
  shows (expected u sp s eps b m x) "Tolerance:" [FQ eps] /\ shows (expected u sp s eps b m x) "Optimization time:" [FQ (s_cum s)] /\
  shows (expected u sp s eps b m x) "Number continuous variables" [FNat (number_of is_continuous (kinds sp))] /\
  shows (expected u sp s eps b m x) "Number discrete variables" [FNat (number_of is_discrete (kinds sp))] /\
  shows (expected u sp s eps b m x) "Evaluator type (batch size):" [FStr (u_evaluator u); FNat (u_batch u)] /\
  shows (expected u sp s eps b m x) "Cost used:" [FStr (cost_type (s_cost s))] /\ shows (expected u sp s eps b m x) "Constraints:" [FBool false].
Proof. repeat match goal with |- _ /\ _ => split end; shown. Qed.

Lemma stop_limit mi mt q : fst (stop_conditions mi mt) = Some q <-> iteration_limit mi mt q.
Proof.
  unfold iteration_limit. destruct mi as [| |qi], mt as [| |qt]; cbn; unfold q0; (split; [intros H|intros [H|(H1 & H2 & H3)]]); try discriminate; try congruence.
  - right. split; [reflexivity|]. split; [reflexivity|]. congruence.
  - left. congruence.
  - left. congruence.
  - left. congruence.
Qed.
Lemma qceq_iff a b : qceq a b = true <-> a = b.
Proof. unfold qceq. rewrite Qeq_bool_iff. split; [apply Qc_is_canon|now intros ->]. Qed.

Section Report2.
Context {M : Type}.
Lemma finished_report fuel (E : env M) s max_iter max_time eps ctx s' o u : e_obj E = Some o ->
  run_optimization fuel E s max_iter max_time eps ctx = (s', Some (Ok tt)) -> sp_dim (e_space E) = length (sp_xvars (e_space E)) ->
  exists b yb x m, s_report s' = Some (yb, x, m) /\
    save_report (object Bayesian u (e_space E) s' (Some (eps, stop_conditions max_iter max_time))) = (expected u (e_space E) s' eps b m x, None) /\
    (b = true <-> iteration_limit max_iter max_time (nat2q (s_num s'))).
Proof.
  intros O H D. destruct (run_reports fuel E s max_iter max_time eps ctx s' o O H) as (Y & yb & x & m & i & HY & HR & MIN & FM & NY & NX & _).
  assert (PM : py_min Y = Ok m).
  { destruct (py_min Y) as [m'|e] eqn:P; [f_equal; eapply is_min_unique; [apply py_min_spec, P|exact MIN]|]. destruct Y; [destruct MIN as [[] _]|discriminate]. }
  assert (AM : argmin Y = Some i).
  { destruct (argmin Y) as [j|] eqn:A; [|destruct Y; [destruct MIN as [[] _]|unfold argmin, argbest in A; discriminate]].
    f_equal. apply argmin_first_min in A. destruct A as (a & A1 & A2 & A3), FM as (c & C1 & C2 & C3).
    assert (a = c) by (eapply is_min_unique; eauto). subst c.
    destruct (lt_eq_lt_dec i j) as [[L|L]|L]; [|auto|]; exfalso.
    - pose proof (A3 _ _ L C1) as X. exact (Qclt_not_le _ _ X (Qcle_refl _)).
    - pose proof (C3 _ _ L A1) as X. exact (Qclt_not_le _ _ X (Qcle_refl _)). }
  destruct (stop_conditions max_iter max_time) as [mi mt] eqn:SC.
  exists (match mi with Some q => qceq (nat2q (s_num s')) q | None => false end), yb, x, m. split; [exact HR|]. split.
  - apply report_bayesian with Y i; assumption.
  - rewrite <- stop_limit, SC. cbn. destruct mi as [q|]; [|split; discriminate]. rewrite qceq_iff. split; congruence.
Qed.

(** ---- tables *)
Lemma numbered_nth rows : forall i r, nth_error rows i = Some r -> nth_error (numbered rows) i = Some (nat2q (S i) :: r).
Proof.
  intros i r H. unfold numbered. apply (map_nth_error (fun p : nat * vec => nat2q (S (fst p)) :: snd p) i _ (d := (i, r))).
  assert (G : forall rows k i, nth_error rows i = Some r -> nth_error (combine (seq k (length rows)) rows) i = Some (k + i, r)).
  { clear. induction rows as [|a t IH]; intros k [|i] H; try discriminate; simpl in *; [rewrite Nat.add_0_r; congruence|]. rewrite (IH (S k) i H). f_equal. f_equal. lia. }
  rewrite (G rows 0 i H). reflexivity.
Qed.
Lemma numbered_length rows : length (numbered rows) = length rows.
Proof. unfold numbered. rewrite map_length, combine_length, seq_length. lia. Qed.
Lemma combine_nth_error {A B} (a : list A) (b : list B) i x y : nth_error a i = Some x -> nth_error b i = Some y -> nth_error (combine a b) i = Some (x, y).
Proof. revert b i. induction a as [|a0 a IH]; intros [|b0 b] [|i] H K; try discriminate; simpl in *; [congruence|now apply IH]. Qed.
Lemma evaluations_table X Y : length X = length Y -> exists t, save_evaluations X (Some Y) = Ok t /\ length (snd t) = length X /\
  (forall i x y, nth_error X i = Some x -> nth_error Y i = Some y -> nth_error (snd t) i = Some (nat2q (S i) :: y :: x)) /\
  read_evaluations t = map Some (combine Y X).
Proof.
  intros L. unfold save_evaluations. rewrite L, Nat.eqb_refl. eexists. split; [reflexivity|]. cbn [snd]. split; [|split].
  - rewrite numbered_length, map_length, combine_length. lia.
  - intros i x y HX HY. apply numbered_nth. apply (map_nth_error (fun p : Qc * vec => fst p :: snd p) i _ (d := (y, x))). now apply combine_nth_error.
  - unfold read_evaluations. cbn [snd]. generalize (combine Y X). intros l. unfold numbered. rewrite map_map. rewrite map_length.
    generalize 0. induction l as [|[y x] l IH]; intros k; [reflexivity|]. simpl. f_equal. apply IH.
Qed.
Lemma evaluations_header X Y t : save_evaluations X (Some Y) = Ok t ->
  fst t = "Iteration" :: "Y" :: map (fun k => ("var_" ++ str_nat k)%string) (seq 1 (length (hd [] X))).
Proof. unfold save_evaluations. destruct (Nat.eqb _ _); [|discriminate]. intros [= <-]. destruct X; reflexivity. Qed.
Lemma evaluations_mismatch X Y : length X <> length Y -> save_evaluations X (Some Y) = Raise ValueError.
Proof. intros N. unfold save_evaluations. destruct (Nat.eqb_spec (length Y) (length X)); [congruence|reflexivity]. Qed.
End Report2.
