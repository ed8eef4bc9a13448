From Coq Require Import String List ZArith QArith Qcanon Bool Lia Arith.
From Verif.Model Require Import Py Space Design Optim Objective Answers.
From Verif.Spec Require Import AnswersSpec.
Import ListNotations.
Local Open Scope nat_scope.

Lemma says_rows a v : says a v -> new_rows a = Ok [v].
Proof. now intros [-> | [-> | ->]]. Qed.
Lemma column_rows a c : rectangular a -> (column a c <-> new_rows a = Ok c).
Proof.
  intro R. split.
  - intros []; try reflexivity. cbn. f_equal. clear R. induction H as [|row v m' c' -> F IH]; cbn; [reflexivity|]. now rewrite IH.
  - destruct a as [v|l|w m|]; cbn; try discriminate.
    + intros [= <-]. constructor.
    + destruct l as [|v [|]]; cbn; try discriminate. intros [= <-]. constructor.
    + destruct (Nat.eqb_spec w 1) as [->|]; [|discriminate]. intros [= <-]. constructor. cbn in R. induction R as [|row m E R IH]; cbn; [constructor|].
      destruct row as [|v [|]]; try discriminate. cbn. now constructor.
Qed.

(** ---- answers of one number *)
Lemma eval_any_same f g clock : same f g -> forall rows h t,
  eval_any f clock h t rows = match eval_rows g clock h t rows with (h', t', Ok l) => (h', t', Ok (map fst l, map snd l)) | (h', t', Raise e) => (h', t', Raise e) end.
Proof.
  intros S. induction rows as [|x r IH]; intros h t; cbn; [reflexivity|]. specialize (S h x). destruct (g h x) as [v|e].
  - destruct S as [a [-> A]]. cbn. rewrite (says_rows a v A). rewrite IH. destruct (eval_rows g clock (h ++ [x]) _ r) as [[h' t'] [l|e]]; reflexivity.
  - now rewrite S.
Qed.
Lemma eval_rows_length g clock : forall rows h t h' t' l, eval_rows g clock h t rows = (h', t', Ok l) -> length l = length rows.
Proof.
  induction rows as [|x r IH]; intros h t h' t' l; cbn.
  - intros [= <- <- <-]. reflexivity.
  - destruct (g h x); [|discriminate]. destruct (eval_rows g clock (h ++ [x]) _ r) as [[h1 t1] [l1|e]] eqn:E; intros [= <- <- <-]. cbn. f_equal. eauto.
Qed.
Lemma stride_len {A B} n : forall (l : list A) (m : list B) k, length l = length m -> length (stride n k l) = length (stride n k m).
Proof. induction l as [|a l IH]; intros [|b m] k; cbn; try discriminate; [reflexivity|]. intros [= E]. destruct k; cbn; [f_equal|]; now apply IH. Qed.
Lemma put_stride_len {A} n : forall (Y : list A) k m, length (put_stride n k Y m) = length Y.
Proof. induction Y as [|a l IH]; intros [|k] m; cbn; try reflexivity; [destruct m|]; cbn; now rewrite IH. Qed.
Lemma child_same f g clock h t rows : same f g -> child_any f clock h t rows = child g clock h t rows.
Proof. intro S. unfold child_any, child. rewrite (eval_any_same f g clock S). destruct (eval_rows g clock h t rows) as [[h' t'] [l|e]]; reflexivity. Qed.
Lemma child_length g clock h t rows m : child g clock h t rows = Ok m -> length m = length rows.
Proof. unfold child. destruct (eval_rows g clock h t rows) as [[h' t'] [l|e]] eqn:E; intros [= <-]. rewrite map_length. eapply eval_rows_length, E. Qed.
Lemma collect_same n (c : mat -> res vec) x (C : forall rows m, c rows = Ok m -> length m = length rows) : forall k i Y, length Y = length x ->
  collect_any n i Y (map c (map (fun j => stride n j x) (seq i k))) =
  match mapM c (map (fun j => stride n j x) (seq i k)) with Ok msgs => Some (Ok (collect n i Y msgs)) | Raise _ => None end.
Proof.
  induction k as [|k IH]; intros i Y L; cbn; [reflexivity|]. destruct (c (stride n i x)) as [m|e] eqn:E; [|reflexivity]. cbn. unfold assign.
  rewrite (C _ _ E), (stride_len n Y x i L), Nat.eqb_refl. rewrite IH by (now rewrite put_stride_len). destruct (mapM c _); reflexivity.
Qed.
Lemma numbers n fork f g clock h t x : same f g -> evaluate_any n fork f clock h t x = evaluate (mk_obj g n fork) clock h t x.
Proof.
  intro S. assert (F : eval_func_any f clock h t x = eval_func g clock h t x).
  { unfold eval_func_any, eval_func. rewrite (eval_any_same f g clock S). destruct (eval_rows g clock h t x) as [[h' t'] [l|e]]; reflexivity. }
  assert (P : parallel_any n fork f clock h t x = parallel_evaluation (mk_obj g n fork) clock h t x).
  { unfold parallel_any, parallel_evaluation. cbn [o_fork o_procs o_fun]. destruct (negb fork && Nat.ltb 0 n); [reflexivity|]. unfold divided_samples.
    rewrite (map_ext_in _ (child g clock h t)) by (intros; now apply child_same). rewrite (collect_same n (child g clock h t) x) by (try apply child_length; apply repeat_length).
    destruct (mapM _ _); reflexivity. }
  unfold evaluate_any, evaluate. cbn [o_procs o_fun]. rewrite F, P. reflexivity.
Qed.

(** ---- any answers, one after the other *)
Lemma asked_cons f h x r : asked f h (x :: r) = f h x :: asked f (h ++ [x]) r.
Proof.
  unfold asked. cbn [length seq map]. cbn [firstn nth]. rewrite app_nil_r. f_equal. rewrite <- seq_shift, map_map. apply map_ext. intro i. cbn [firstn nth].
  now rewrite <- app_assoc.
Qed.
Lemma sequential f clock : proper f -> forall rows h t cols, List.Forall2 (fun r c => exists a, r = Ok a /\ column a c) (asked f h rows) cols ->
  exists t' ds, eval_any f clock h t rows = (h ++ rows, t', Ok (concat cols, ds)) /\ length ds = length rows.
Proof.
  intro P. induction rows as [|x r IH]; intros h t cols F.
  - inversion F; subst. exists t, []. cbn. now rewrite app_nil_r.
  - rewrite asked_cons in F. inversion F as [|? c ? cs [a [A C]] F']; subst. cbn. rewrite A. cbn. rewrite (proj1 (column_rows a c (P _ _ _ A)) C).
    destruct (IH _ (S (S t)) _ F') as [t' [ds [E L]]]. rewrite E. rewrite <- app_assoc. eexists _, _. split; [reflexivity|]. cbn. now f_equal.
Qed.
Lemma sequential_inv f clock : proper f -> forall rows h t h' t' ys ds, eval_any f clock h t rows = (h', t', Ok (ys, ds)) ->
  exists cols, List.Forall2 (fun r c => exists a, r = Ok a /\ column a c) (asked f h rows) cols /\ ys = concat cols.
Proof.
  intro P. induction rows as [|x r IH]; intros h t h' t' ys ds; cbn [eval_any].
  - intros [= <- <- <- <-]. exists []. split; [constructor|reflexivity].
  - destruct (f h x) as [a|e] eqn:A; cbn [bind]; [|discriminate]. destruct (new_rows a) as [c|e] eqn:C; [|discriminate].
    destruct (eval_any f clock (h ++ [x]) _ r) as [[h1 t1] [[ys1 ds1]|e]] eqn:E; intros [= <- <- <- <-]. destruct (IH _ _ _ _ _ _ E) as [cols [F Y]].
    exists (c :: cols). rewrite asked_cons. cbn. split; [|now f_equal]. constructor; [|exact F]. exists a. split; [exact A|]. now apply column_rows; [eapply P, A|].
Qed.
(** the first answer that is refused *)
Lemma refused f clock : proper f -> forall rows h t i a, nth_error (asked f h rows) i = Some (Ok a) -> (forall c, ~ column a c) ->
  (forall j r, j < i -> nth_error (asked f h rows) j = Some r -> exists a c, r = Ok a /\ column a c) ->
  exists t', eval_any f clock h t rows = (h ++ firstn (S i) rows, t', Raise ValueError).
Proof.
  intro P. induction rows as [|x r IH]; intros h t i a A N B; [now destruct i|]. rewrite asked_cons in *. destruct i as [|i].
  - cbn in A. injection A as A. cbn. rewrite A. cbn. destruct (new_rows a) as [c|e] eqn:C; [exfalso; apply (N c), column_rows; [eapply P, A|exact C]|].
    assert (e = ValueError) as -> by (destruct a; cbn in C; try discriminate; try (destruct (Nat.eqb _ 1); congruence); congruence). now exists (S t).
  - destruct (B 0 (f h x) ltac:(lia) eq_refl) as [a0 [c0 [A0 C0]]]. cbn [eval_any]. rewrite A0. cbn [bind]. rewrite (proj1 (column_rows a0 c0 (P _ _ _ A0)) C0).
    destruct (IH (h ++ [x]) (S (S t)) i a A N) as [t' E]; [intros j rr J K; apply (B (S j)); [lia|exact K]|]. rewrite E. exists t'. now rewrite <- app_assoc.
Qed.

(** ---- in parallel *)
Lemma child_any_cases f clock h t rows : child_any f clock h t rows = match eval_any f clock h t rows with (_, _, Ok (ys, _)) => Ok ys | (_, _, Raise e) => Raise e end.
Proof. reflexivity. Qed.
Lemma stride_head {A} n (a : A) l : stride n 0 (a :: l) = a :: stride n (n - 1) l.
Proof. reflexivity. Qed.
Lemma never n f clock h t x : (forall h x a c, f h x = Ok a -> ~ column a c) -> proper f -> x <> [] -> 2 <= n -> evaluate_any n true f clock h t x = (h, t, None).
Proof.
  intros N P X n2. unfold evaluate_any. destruct (Nat.eqb_spec n 1); [lia|]. unfold parallel_any. cbn [negb andb]. unfold divided_samples.
  destruct n as [|n]; [lia|]. cbn [seq map]. destruct x as [|x r]; [congruence|]. rewrite stride_head. unfold child_any at 1. cbn [eval_any].
  destruct (f h x) as [a|e] eqn:A; cbn [bind]; [|reflexivity]. destruct (new_rows a) as [c|e] eqn:C; [|reflexivity].
  exfalso. apply (N _ _ _ c A). now apply column_rows; [eapply P, A|].
Qed.
Lemma total_length f clock k : (forall h x, exists a c, f h x = Ok a /\ column a c /\ length c = k) -> proper f -> forall rows h t,
  exists t' ys ds, eval_any f clock h t rows = (h ++ rows, t', Ok (ys, ds)) /\ length ys = k * length rows /\ length ds = length rows.
Proof.
  intros K P. induction rows as [|x r IH]; intros h t.
  - exists t, [], []. cbn. rewrite app_nil_r. auto.
  - destruct (K h x) as [a [c [A [C L]]]]. cbn [eval_any]. rewrite A. cbn [bind]. rewrite (proj1 (column_rows a c (P _ _ _ A)) C).
    destruct (IH (h ++ [x]) (S (S t))) as [t' [ys [ds [E [LY LD]]]]]. rewrite E. rewrite <- app_assoc. eexists _, _, _. split; [reflexivity|]. rewrite app_length. cbn. split; [nia|lia].
Qed.
Lemma fall_back n f clock h t x k : (forall h x, exists a c, f h x = Ok a /\ column a c /\ length c = k) -> proper f -> x <> [] -> 2 <= k ->
  1 <= n ->
  exists t' ys ds, evaluate_any n true f clock h t x = (h ++ x, t', Some (Ok (ys, CList ds))) /\ length ys = k * length x /\ length ds = length x.
Proof.
  intros K P X k2 n1. destruct (total_length f clock k K P x h t) as [t' [ys [ds [E L]]]]. exists t', ys, ds.
  destruct n as [|n]; [lia|]. split; [|exact L]. unfold evaluate_any. assert (F : eval_func_any f clock h t x = (h ++ x, t', Ok (ys, CList ds))) by (unfold eval_func_any; now rewrite E).
  destruct (Nat.eqb_spec (S n) 1); [now rewrite F|].
  assert (Q : parallel_any (S n) true f clock h t x = Some (Raise ValueError)); [|now rewrite Q, F].
  unfold parallel_any. cbn [negb andb]. unfold divided_samples. cbn [seq map collect_any]. destruct x as [|x r]; [congruence|].
  unfold child_any at 1. destruct (total_length f clock k K P (stride (S n) 0 (x :: r)) h t) as [t1 [ys1 [ds1 [E1 [L1 _]]]]]. rewrite E1. cbn [collect_any].
  unfold assign. rewrite (stride_len (S n) (repeat q0 (length (x :: r))) (x :: r) 0 (repeat_length _ _)). rewrite stride_head in *. cbn [length] in L1.
  destruct (Nat.eqb_spec (length ys1) (length (x :: stride (S n) (S n - 1) r))) as [B|B]; [cbn [length] in B; nia|].
  destruct ys1 as [|v [|w ys1]]; try reflexivity. cbn [length] in L1. nia.
Qed.
