(** C110: what an objective may return.  Specification: Spec/AnswersSpec.v.  Model: Model/Answers.v. *)
From Coq Require Import String List ZArith QArith Qcanon Bool Lia.
From Verif.Model Require Import Py Space Design Optim Objective Answers.
From Verif.Spec Require Import AnswersSpec.
From Verif.Proof Require Import Dec AnswersP.
Import ListNotations.
Local Open Scope nat_scope.

(** numbers, vectors of one entry and 1 x 1 arrays are the same to the library: every evaluation, sequential or parallel, is that of the function that
    returns the numbers (Model/Objective.v) *)
Theorem C110_one_number : forall n fork f g clock h t x, same f g -> evaluate_any n fork f clock h t x = evaluate (mk_obj g n fork) clock h t x.
Proof. exact numbers. Qed.
Print Assumptions C110_one_number.

(** a sequential evaluation succeeds exactly when every answer is one column; the values are these columns in the order of the points *)
Theorem C110_columns : forall fork f clock h t x ys, proper f ->
  ((exists h' t' ds, evaluate_any 1 fork f clock h t x = (h', t', Some (Ok (ys, ds)))) <->
   exists cols, List.Forall2 (fun r c => exists a, r = Ok a /\ column a c) (asked f h x) cols /\ ys = concat cols).
Proof.
  intros fork f clock h t x ys P. unfold evaluate_any, eval_func_any. cbn [Nat.eqb]. split.
  - intros [h' [t' [ds H]]]. destruct (eval_any f clock h t x) as [[h1 t1] [[ys1 ds1]|e]] eqn:E; [|discriminate]. injection H as <- <- <- <-. eapply sequential_inv; eauto.
  - intros [cols [F ->]]. destruct (sequential f clock P x h t cols F) as [t' [ds [-> _]]]. eauto.
Qed.
Print Assumptions C110_columns.

(** the first answer that is not one column ends the evaluation in a ValueError, after the calls up to this one *)
Theorem C110_refused : forall fork f clock h t x i a, proper f -> nth_error (asked f h x) i = Some (Ok a) -> (forall c, ~ column a c) ->
  (forall j r, j < i -> nth_error (asked f h x) j = Some r -> exists a c, r = Ok a /\ column a c) ->
  exists t', evaluate_any 1 fork f clock h t x = (h ++ firstn (S i) x, t', Some (Raise ValueError)).
Proof.
  intros fork f clock h t x i a P A N B. destruct (refused f clock P x h t i a A N B) as [t' E]. exists t'. unfold evaluate_any, eval_func_any. cbn [Nat.eqb]. now rewrite E.
Qed.
Print Assumptions C110_refused.

(** with several processes an objective whose answers are not columns is waited for without end, where one process gives the ValueError *)
Theorem C110_refused_in_parallel : forall n f clock h t x, proper f -> (forall h x a c, f h x = Ok a -> ~ column a c) -> x <> [] -> 2 <= n ->
  evaluate_any n true f clock h t x = (h, t, None).
Proof. intros n f clock h t x P N X n2. now apply never. Qed.
Print Assumptions C110_refused_in_parallel.

(** "there is one value for each point" is false: columns of k >= 2 entries are accepted, with any number of processes, and give k values for each
    point, with one duration for each point; with several processes the points are evaluated twice, the second time in the main process *)
Theorem C110_one_value_per_point_refuted : forall n f clock h t x k, proper f ->
  (forall h x, exists a c, f h x = Ok a /\ column a c /\ length c = k) -> x <> [] -> 2 <= k -> 1 <= n ->
  exists t' ys ds, evaluate_any n true f clock h t x = (h ++ x, t', Some (Ok (ys, CList ds))) /\ length ys = k * length x /\ length ds = length x /\ length ys <> length x.
Proof.
  intros n f clock h t x k P K X k2 n1. destruct (fall_back n f clock h t x k K P X k2 n1) as [t' [ys [ds [E [L M]]]]]. exists t', ys, ds. repeat split; try assumption.
  destruct x; [congruence|]. rewrite L. cbn [length]. nia.
Qed.
Print Assumptions C110_one_value_per_point_refuted.

(** "with several processes a point gets its own value" is false for such objectives: here the third of four points gives no value, and two processes
    report the value of the first point for it, although one process reports three values *)
Definition skips : anyfun := fun _ x => if qceq (hd q0 x) (z2q 3) then Ok (AMat 1 []) else Ok (AMat 1 [[hd q0 x]]).
Theorem C110_own_value_refuted : forall clock,
  (exists t, evaluate_any 1 true skips clock [] 0 [[z2q 1]; [z2q 2]; [z2q 3]; [z2q 4]] =
    ([[z2q 1]; [z2q 2]; [z2q 3]; [z2q 4]], t, Some (Ok ([z2q 1; z2q 2; z2q 4], CList (map (fun i => (clock (S (2 * i)%nat) - clock (2 * i)%nat)%Qc) [0; 1; 2; 3]))))) /\
  evaluate_any 2 true skips clock [] 0 [[z2q 1]; [z2q 2]; [z2q 3]; [z2q 4]] =
    ([], 0, Some (Ok ([z2q 1; z2q 2; z2q 1; z2q 4], CMat [[q1]; [q1]; [q1]; [q1]]))).
Proof. intro clock. split; [eexists|]; reflexivity. Qed.
Print Assumptions C110_own_value_refuted.

Example C110_nonvacuous :
  let f : anyfun := fun h x => match h with [] => Ok (AScalar (hd q0 x)) | [_] => Ok (AVec [hd q0 x]) | _ => Ok (AMat 1 [[hd q0 x]]) end in
  same f (fun _ x => Ok (hd q0 x)) /\ proper f /\ proper skips /\
  evaluate_any 1 true f (fun _ => q0) [] 0 [[z2q 5]; [z2q 6]; [z2q 7]] = ([[z2q 5]; [z2q 6]; [z2q 7]], 6, Some (Ok ([z2q 5; z2q 6; z2q 7], CList [q0; q0; q0]))) /\
  evaluate_any 1 true (fun h x => match h with [] => Ok (AScalar q1) | _ => Ok (AVec [q1; q0]) end) (fun _ => q0) [] 0 [[z2q 5]; [z2q 6]; [z2q 7]] =
    ([[z2q 5]; [z2q 6]], 3, Some (Raise ValueError)) /\
  evaluate_any 3 true (fun _ x => Ok (AMat 1 [[q1]; [q0]])) (fun _ => q0) [] 0 [[z2q 5]; [z2q 6]] = ([[z2q 5]; [z2q 6]], 4, Some (Ok ([q1; q0; q1; q0], CList [q0; q0]))) /\
  (forall c, ~ column (AVec [q1; q0]) c).
Proof.
  cbn zeta. split; [|split; [|split]].
  - intros [|? [|]] x; eexists; (split; [reflexivity|]); unfold says; auto.
  - intros [|? [|]] x a [= <-]; cbn; auto.
  - intros h x a. unfold skips. destruct (qceq (hd q0 x) (z2q 3)); intros [= <-]; cbn; auto.
  - do 3 (split; [reflexivity|]). intros c H. inversion H.
Qed.
