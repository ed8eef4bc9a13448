(** Noisy objectives. *)
From Coq Require Import List ZArith QArith Qcanon Bool Arith Lia.
From Verif.Model Require Import Py Space Design Optim Objective Parallel BO Noise.
From Verif.Spec Require Import BOSpec NoiseSpec.
From Verif.Proof Require Import Num BOP BOLoop BOMain BOMain2 BOExtra ParP ParMain.
Import ListNotations.
Local Open Scope nat_scope.

Section Generic.
Context {G : Type}.
Variables (f : noisy G) (g : G).
Lemma state_app h x : state_after f g (h ++ [x]) = snd (f x (state_after f g h)).
Proof. unfold state_after. rewrite fold_left_app. reflexivity. Qed.
Lemma eval_all_turn : forall rows h ys, eval_all (as_function f g) h rows = Ok ys ->
  in_turn f (state_after f g h) rows ys (state_after f g (h ++ rows)).
Proof.
  induction rows as [|x rows IH]; intros h ys; cbn [eval_all].
  - intros E. injection E as <-. rewrite app_nil_r. constructor.
  - unfold as_function at 1. destruct (f x (state_after f g h)) as [[y|e] g1] eqn:F; cbn [fst]; [|discriminate].
    destruct (eval_all _ (h ++ [x]) rows) as [l|e] eqn:A; [|discriminate]. intros E. injection E as <-.
    specialize (IH _ _ A). rewrite state_app, F in IH. cbn [snd] in IH. rewrite <- app_assoc in IH. cbn [app] in IH. econstructor; eauto.
Qed.
Lemma eval_rows_all clock : forall rows h t h' t' l, eval_rows (as_function f g) clock h t rows = (h', t', Ok l) ->
  eval_all (as_function f g) h rows = Ok (map fst l) /\ h' = h ++ rows.
Proof.
  induction rows as [|x rows IH]; intros h t h' t' l; cbn [eval_rows eval_all].
  - intros E. injection E as <- _ <-. rewrite app_nil_r. auto.
  - destruct (as_function f g h x) as [y|e]; [|discriminate].
    destruct (eval_rows _ clock (h ++ [x]) (S (S t)) rows) as [[h1 t1] [l1|e]] eqn:A; [|discriminate]. intros E. injection E as <- _ <-.
    destruct (IH _ _ _ _ _ A) as [B ->]. rewrite B. cbn [map fst]. rewrite <- app_assoc. auto.
Qed.
Lemma sequential clock t x g' t' ys cs procs fork : one_process procs fork ->
  evaluate_with f procs fork clock g t x = (g', t', Some (Ok (ys, cs))) -> in_turn f g x ys g'.
Proof.
  intros P. unfold evaluate_with.
  assert (E : evaluate (mk_obj (as_function f g) procs fork) clock [] t x = evaluate (mk_obj (as_function f g) 1 fork) clock [] t x).
  { destruct P as [-> |[P ->]]; [reflexivity|]. now apply fall_back. }
  rewrite E. unfold evaluate. cbn [o_procs o_fun Nat.eqb]. unfold eval_func.
  destruct (eval_rows _ clock [] t x) as [[h1 t1] [l|e]] eqn:A; [|discriminate]. intros H. injection H as <- _ <- _.
  destruct (eval_rows_all _ _ _ _ _ _ _ A) as [B ->]. apply (eval_all_turn x [] _ B).
Qed.
End Generic.

(** The rows of the children, put together again. *)
Lemma strides_glue n (x : mat) (msgs : list vec) : 1 <= n -> length msgs = n ->
  (forall i m, nth_error msgs i = Some m -> length m = length (stride n i x)) ->
  exists L : vec, length L = length x /\ collect n 0 (repeat q0 (length x)) msgs = L /\
    forall i m, nth_error msgs i = Some m -> m = stride n i L.
Proof.
  intros N LM H. set (L := map (fun r => nth (r / n) (nth (r mod n) msgs []) q0) (seq 0 (length x))).
  assert (LL : length L = length x) by (unfold L; now rewrite map_length, seq_length).
  assert (S : forall i m, nth_error msgs i = Some m -> m = stride n i L).
  { intros i m E. assert (I : i < n) by (rewrite <- LM; apply nth_error_Some; congruence).
    apply nth_error_ext. intros k. rewrite stride_nth by exact N.
    assert (LS : forall k, k < length m <-> i + k * n < length x).
    { intros j. rewrite (H i m E). rewrite <- !nth_error_Some. rewrite stride_nth by exact N. reflexivity. }
    destruct (Nat.lt_ge_cases k (length m)) as [K|K].
    - assert (B : i + k * n < length x) by now apply LS.
      unfold L. rewrite nth_error_map, (nth_error_nth' (seq 0 (length x)) 0), seq_nth by (rewrite ?seq_length; exact B). cbn [option_map plus].
      rewrite Nat.div_add, Nat.div_small, Nat.mod_add, Nat.mod_small by lia. cbn [plus].
      rewrite (nth_error_nth msgs i [] E). rewrite (nth_error_nth' m q0 K). reflexivity.
    - assert (B : length x <= i + k * n). { destruct (Nat.lt_ge_cases (i + k * n) (length x)) as [C|C]; [|exact C]. apply LS in C. lia. }
      rewrite (proj2 (nth_error_None m k) K). symmetry. apply nth_error_None. lia. }
  exists L. split; [exact LL|]. split; [|exact S].
  rewrite <- (collect_strides n L (repeat q0 (length x)) N) by (now rewrite repeat_length, LL). f_equal.
  apply nth_error_ext. intros i. rewrite nth_error_map. destruct (nth_error msgs i) as [m|] eqn:E.
  - assert (I : i < n) by (rewrite <- LM; apply nth_error_Some; congruence).
    rewrite (nth_error_nth' (seq 0 n) 0), seq_nth by (rewrite ?seq_length; exact I). cbn [option_map plus]. f_equal. now apply S.
  - apply nth_error_None in E. rewrite (proj2 (nth_error_None (seq 0 n) i)) by (rewrite seq_length; lia). reflexivity.
Qed.
Lemma eval_all_length f : forall rows h ys, eval_all f h rows = Ok ys -> length ys = length rows.
Proof.
  induction rows as [|r rows IH]; intros h ys; cbn [eval_all]; [intros E; now injection E as <-|].
  destruct (f h r); [|discriminate]. destruct (eval_all f (h ++ [r]) rows) eqn:A; [|discriminate]. intros E. injection E as <-. cbn [length]. f_equal. eauto.
Qed.

Section Generic2.
Context {G : Type}.
Lemma parallel (f : noisy G) g clock t x g' t' ys cs procs : 2 <= procs ->
  evaluate_with f procs true clock g t x = (g', t', Some (Ok (ys, cs))) ->
  g' = g /\ length ys = length x /\ forall i, i < procs -> exists gi, in_turn f g (stride procs i x) (stride procs i ys) gi.
Proof.
  intros P. unfold evaluate_with, evaluate. cbn [o_procs o_fun]. replace (Nat.eqb procs 1) with false by (symmetry; apply Nat.eqb_neq; lia).
  unfold parallel_evaluation. cbn [o_fork o_procs o_fun negb andb]. rewrite children_results.
  destruct (mapM _ _) as [ms|e] eqn:M; [|discriminate]. intros E. injection E as <- _ <- _. split; [reflexivity|].
  assert (R : forall i m, nth_error ms i = Some m -> eval_all (as_function f g) [] (stride procs i x) = Ok m).
  { intros i m E. assert (I : i < procs). { apply mapM_length in M. rewrite seq_length in M. rewrite <- M. apply nth_error_Some. congruence. }
    assert (S : nth_error (seq 0 procs) i = Some i) by (rewrite (nth_error_nth' _ 0), seq_nth by (rewrite ?seq_length; lia); reflexivity).
    destruct (mapM_nth _ _ _ M i i S) as (m' & Rm & E'). unfold result in Rm. rewrite E in E'. injection E' as <-. exact Rm. }
  destruct (strides_glue procs x ms) as (L & LL & CL & S); [lia|apply mapM_length in M; rewrite seq_length in M; lia| |].
  { intros i m E. apply (eval_all_length _ _ _ _ (R i m E)). }
  unfold vec in *. rewrite CL. split; [exact LL|]. intros i I.
  destruct (nth_error ms i) as [m|] eqn:E.
  2:{ apply nth_error_None in E. apply mapM_length in M. rewrite seq_length in M. lia. }
  exists (state_after f g ([] ++ stride procs i x)). rewrite <- (S i m E). apply (eval_all_turn f g _ [] m). apply R. exact E.
Qed.
End Generic2.

(** Additive noise. *)
Lemma turn_additive mean stream k rows ys k' : in_turn (additive mean stream) k rows ys k' ->
  k' = k + length rows /\ length ys = length rows /\
  forall r x y, nth_error rows r = Some x -> nth_error ys r = Some y -> exists m, mean x = Ok m /\ y = (m + stream (k + r)%nat)%Qc.
Proof.
  induction 1 as [k|k x y k1 rows ys k2 F T (IH1 & IH2 & IH3)].
  - split; [cbn; lia|]. split; [reflexivity|]. intros [|r] x y; discriminate.
  - unfold additive in F. destruct (mean x) as [m|e] eqn:M; cbn [bind] in F; [|discriminate]. injection F as <- <-.
    cbn [length]. split; [lia|]. split; [lia|]. intros [|r] a b; cbn [nth_error].
    + intros A B. injection A as <-. injection B as <-. exists m. rewrite Nat.add_0_r. auto.
    + intros A B. destruct (IH3 r a b A B) as (m' & M' & ->). exists m'. split; auto. do 2 f_equal. lia.
Qed.
Lemma parallel_additive mean stream clock k t x k' t' ys cs procs : 2 <= procs ->
  evaluate_with (additive mean stream) procs true clock k t x = (k', t', Some (Ok (ys, cs))) ->
  k' = k /\ length ys = length x /\
  forall r a y, nth_error x r = Some a -> nth_error ys r = Some y -> exists m, mean a = Ok m /\ y = (m + stream (k + r / procs)%nat)%Qc.
Proof.
  intros P E. destruct (parallel _ _ _ _ _ _ _ _ _ _ P E) as (-> & L & T). split; [reflexivity|]. split; [exact L|].
  intros r a y A Y. assert (I : r mod procs < procs) by (apply Nat.mod_upper_bound; lia).
  destruct (T _ I) as (gi & Ti). destruct (turn_additive _ _ _ _ _ _ Ti) as (_ & _ & D).
  apply (D (r / procs)); rewrite stride_nth by lia.
  - rewrite <- A. f_equal. pose proof (Nat.div_mod r procs). lia.
  - rewrite <- Y. f_equal. pose proof (Nat.div_mod r procs). lia.
Qed.

(** The draws of a run in one process. *)
Lemma calls_fresh mean stream procs fork clock k t log : one_process procs fork -> calls (additive mean stream) procs fork clock k t log ->
  exists ps : list nat, NoDup ps /\ (forall p, In p ps -> k <= p) /\
    Forall2 (fun xy p => exists m, mean (fst xy) = Ok m /\ snd xy = (m + stream p)%Qc) (concat (map (fun b => combine (fst b) (snd b)) log)) ps.
Proof.
  intros O. induction 1 as [k t|k t d x k' t' ys cs log E C (ps & N & B & F)].
  - exists []. repeat constructor. intros p [].
  - apply (sequential _ _ _ _ _ _ _ _ _ _ _ O) in E. destruct (turn_additive _ _ _ _ _ _ E) as (-> & L & D).
    exists (seq (k + d) (length x) ++ ps). split; [|split].
    + clear - N B. revert N. induction (length x) as [|n IH] in k, d, B |- *; [auto|]. intros N. cbn [seq app]. constructor.
      * intros I. apply in_app_or in I. destruct I as [I|I]; [apply in_seq in I; lia|apply B in I; lia].
      * specialize (IH (k + 1) d). replace (k + 1 + d) with (S (k + d)) in IH by lia. apply IH; auto. intros p I. apply B in I. lia.
    + intros p I. apply in_app_or in I. destruct I as [I|I]; [apply in_seq in I; lia|apply B in I; lia].
    + cbn [map concat fst snd]. apply Forall2_app; [|exact F]. clear - L D. revert ys L D.
      generalize (k + d) as k0. induction x as [|a x IH]; intros k0 [|y ys] L D; cbn [length] in L; try lia; cbn [combine seq length].
      * constructor.
      * constructor.
        -- destruct (D 0 a y eq_refl eq_refl) as (m & M & ->). exists m. rewrite Nat.add_0_r. auto.
        -- apply IH; [lia|]. intros r b z A Y. destruct (D (S r) b z A Y) as (m & M & ->). exists m. split; auto. do 2 f_equal. lia.
Qed.
