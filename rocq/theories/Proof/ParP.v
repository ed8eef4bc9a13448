(** All schedules of a parallel evaluation. *)
From Coq Require Import List Bool Arith QArith Qcanon Lia.
From Verif.Model Require Import Py Space Objective Parallel.
From Verif.Spec Require Import BOSpec.
From Verif.Proof Require Import Num BOP.
Import ListNotations.
Local Open Scope nat_scope.

(** Evaluating the rows one after the other. *)
Fixpoint eval_all (f : objfun) (h : list vec) (rows : mat) : res vec :=
  match rows with
  | [] => Ok []
  | r :: t => match f h r with
              | Raise e => Raise e
              | Ok y => match eval_all f (h ++ [r]) t with Ok l => Ok (y :: l) | Raise e => Raise e end
              end
  end.
Lemma child_eval_all f clock : forall rows h t, child f clock h t rows = eval_all f h rows.
Proof.
  unfold child. induction rows as [|r rows IH]; intros h t; cbn [eval_rows eval_all]; [reflexivity|].
  destruct (f h r); [|reflexivity]. specialize (IH (h ++ [r]) (S (S t))).
  destruct (eval_rows f clock (h ++ [r]) (S (S t)) rows) as [[h1 t1] [l|e]]; rewrite <- IH; reflexivity.
Qed.

Lemma fupd_eq {A} (g : nat -> A) i a : fupd g i a i = a.
Proof. unfold fupd. now rewrite Nat.eqb_refl. Qed.
Lemma fupd_neq {A} (g : nat -> A) i a j : j <> i -> fupd g i a j = g j.
Proof. intros N. unfold fupd. destruct (Nat.eqb_spec j i); congruence. Qed.

Section Par.
Variables (f : objfun) (n : nat) (h : list vec) (x : mat) (fits : vec -> bool).
Notation step := (pstep f n h x fits).
Notation steps := (psteps f n h x fits).
Notation init := par_init.
Definition result (i : nat) : res vec := eval_all f h (stride n i x).
Definition prefixed (v : vec) (r : res vec) : res vec := match r with Ok l => Ok (v ++ l) | Raise e => Raise e end.

(** What the child and the pipe look like; [got]: the parent has received. *)
Definition child_ok (i : nat) (c : cstate) (b : option vec) (got : bool) : Prop :=
  match c with
  | CNew => b = None
  | CRun h' todo vals => prefixed vals (eval_all f h' todo) = result i /\ b = None
  | CSend m => result i = Ok m /\ b = None
  | CDone => exists m, result i = Ok m /\ fits m = true /\ b = if got then None else Some m
  | CDead => (exists e, result i = Raise e) /\ b = None
  end.
Definition msgs_upto (k : nat) (Y : vec) : Prop :=
  exists ms, mapM result (seq 0 k) = Ok ms /\ Y = collect n 0 (repeat q0 (length x)) ms.
Definition inv (s : pstate) : Prop :=
  match ps_parent s with
  | PStart k => k <= n /\ (forall i, k <= i -> ps_child s i = CNew) /\ (forall i, i < k -> ps_child s i <> CNew) /\ forall i, child_ok i (ps_child s i) (ps_pipe s i) false
  | PJoin k => k <= n /\ (forall i, i < n -> ps_child s i <> CNew) /\ (forall i, i < k -> ended (ps_child s i) = true) /\
               forall i, child_ok i (ps_child s i) (ps_pipe s i) false
  | PRecv k Y => k <= n /\ (forall i, i < n -> ended (ps_child s i) = true) /\
               (forall i, child_ok i (ps_child s i) (ps_pipe s i) (Nat.ltb i k)) /\ msgs_upto k Y
  | PDone Y => (forall i, i < n -> ended (ps_child s i) = true) /\ (forall i, i < n -> child_ok i (ps_child s i) (ps_pipe s i) true) /\ msgs_upto n Y
  end.

Lemma collect_snoc m : forall ms i Y, collect n i Y (ms ++ [m]) = put_stride n (i + length ms) (collect n i Y ms) m.
Proof.
  induction ms as [|a ms IH]; intros i Y; cbn [app collect length]; [now rewrite Nat.add_0_r|].
  rewrite IH. f_equal. lia.
Qed.
Lemma mapM_app {A B} (g : A -> res B) l1 l2 r1 r2 : mapM g l1 = Ok r1 -> mapM g l2 = Ok r2 -> mapM g (l1 ++ l2) = Ok (r1 ++ r2).
Proof.
  revert r1. induction l1 as [|a l1 IH]; intros r1 H1 H2; cbn in *; [injection H1 as <-; exact H2|].
  destruct (g a); cbn in *; [|discriminate]. destruct (mapM g l1) as [r|]; cbn in *; [|discriminate]. injection H1 as <-.
  now rewrite (IH r eq_refl H2).
Qed.

Lemma mapM_nth {A B} (g : A -> res B) : forall l bs, mapM g l = Ok bs -> forall i a, nth_error l i = Some a ->
  exists b, g a = Ok b /\ nth_error bs i = Some b.
Proof.
  induction l as [|a l IH]; intros bs H [|i] v N; try discriminate; cbn in H, N.
  - injection N as <-. destruct (g a) as [b|]; cbn in H; [|discriminate]. destruct (mapM g l); cbn in H; [|discriminate]. injection H as <-. exists b. auto.
  - destruct (g a) as [b|]; cbn in H; [|discriminate]. destruct (mapM g l) as [r|]; cbn in H; [|discriminate]. injection H as <-. exact (IH r eq_refl i v N).
Qed.

(** A step of a child keeps what is known about all children. *)
Lemma child_step_ok c b i c1 b1 (g : nat -> bool) : (forall j, child_ok j (c j) (b j) (g j)) -> child_ok i c1 b1 (g i) ->
  forall j, child_ok j (fupd c i c1 j) (fupd b i b1 j) (g j).
Proof.
  intros C H j. destruct (Nat.eq_dec j i) as [->|N]; [now rewrite !fupd_eq|]. rewrite !fupd_neq by exact N. apply C.
Qed.
Lemma child_step_ok1 c b i c1 (g : nat -> bool) : (forall j, child_ok j (c j) (b j) (g j)) -> child_ok i c1 (b i) (g i) ->
  forall j, child_ok j (fupd c i c1 j) (b j) (g j).
Proof.
  intros C H j. destruct (Nat.eq_dec j i) as [->|N]; [now rewrite fupd_eq|]. rewrite fupd_neq by exact N. apply C.
Qed.

(** A child that is active is not ended, so it is only possible before the parent has joined it. *)
Lemma inv_child p c b i c1 b1 : inv (mk_ps p c b) -> i < n -> c i <> CNew -> ended (c i) = false ->
  (forall j, fupd b i b1 j = b j \/ j = i) ->
  child_ok i c1 b1 false -> c1 <> CNew ->
  inv (mk_ps p (fupd c i c1) (fupd b i b1)).
Proof.
  intros I L NN NE _ OK N1. destruct p as [k|k|k Y|Y]; cbn [inv ps_parent ps_child ps_pipe] in *.
  - destruct I as (K & N & N0 & C). split; [exact K|]. split; [|split].
    + intros j J. rewrite fupd_neq; [now apply N|]. intros ->. apply NN. now apply N.
    + intros j J. destruct (Nat.eq_dec j i) as [->|Q]; [now rewrite fupd_eq|rewrite fupd_neq by exact Q; now apply N0].
    + apply (child_step_ok c b i c1 b1 (fun _ => false)); assumption.
  - destruct I as (K & N & D & C). split; [exact K|]. split.
    + intros j J. destruct (Nat.eq_dec j i) as [->|Q]; [now rewrite fupd_eq|rewrite fupd_neq by exact Q; now apply N].
    + split; [|apply (child_step_ok c b i c1 b1 (fun _ => false)); assumption].
      intros j J. rewrite fupd_neq; [now apply D|]. intros ->. rewrite D in NE by exact J. discriminate.
  - destruct I as (_ & D & _). rewrite D in NE by exact L. discriminate.
  - destruct I as (D & _). rewrite D in NE by exact L. discriminate.
Qed.
Lemma fupd_same {A} (g : nat -> A) i : forall j, fupd g i (g i) j = g j.
Proof. intros j. unfold fupd. destruct (Nat.eqb_spec j i); congruence. Qed.
Lemma inv_ext p c b b' : (forall j, b j = b' j) -> inv (mk_ps p c b) -> inv (mk_ps p c b').
Proof.
  intros E. destruct p as [k|k|k Y|Y]; cbn [inv ps_parent ps_child ps_pipe].
  - intros (A & B & B0 & C). repeat split; auto. intros i. rewrite <- E. apply C.
  - intros (A & B & D & C). repeat split; auto. intros i. rewrite <- E. apply C.
  - intros (A & B & C & D). repeat split; auto. intros i. rewrite <- E. apply C.
  - intros (A & C & D). repeat split; auto. intros i L. rewrite <- E. now apply C.
Qed.
Lemma inv_child1 p c b i c1 : inv (mk_ps p c b) -> i < n -> c i <> CNew -> ended (c i) = false ->
  child_ok i c1 (b i) false -> c1 <> CNew -> inv (mk_ps p (fupd c i c1) b).
Proof.
  intros I L NN NE OK N1. apply (inv_ext p _ (fupd b i (b i)) b (fupd_same b i)).
  apply inv_child; auto. intros j. left. apply fupd_same.
Qed.
(** What is known about an active child. *)
Lemma inv_active p c b i : inv (mk_ps p c b) -> i < n -> ended (c i) = false -> child_ok i (c i) (b i) false.
Proof.
  intros I L NE. destruct p as [k|k|k Y|Y]; cbn [inv ps_parent ps_child ps_pipe] in I.
  - apply I.
  - apply I.
  - destruct I as (_ & D & _). rewrite D in NE by exact L. discriminate.
  - destruct I as (D & _). rewrite D in NE by exact L. discriminate.
Qed.

Lemma inv_init : inv init.
Proof. cbn. split; [lia|]. split; [reflexivity|]. split; [intros; lia|]. intros; reflexivity. Qed.

Lemma inv_step s s' : inv s -> step s s' -> inv s'.
Proof.
  intros I H. destruct H as [i c b L|c b|i c b L EN|c b|i Y c b m L B|i Y c b m L CI FI|Y c b|p i c b h' r rest vals y L CI F|p i c b h' r rest vals e L CI F|p i c b h' vals L CI|p i c b m L CI FI].
  - cbn [inv ps_parent ps_child ps_pipe] in *. destruct I as (K & N & N0 & C). split; [lia|]. split; [|split].
    + intros j J. rewrite fupd_neq by lia. apply N. lia.
    + intros j J. destruct (Nat.eq_dec j i) as [->|Q]; [rewrite fupd_eq; discriminate|rewrite fupd_neq by exact Q; apply N0; lia].
    + apply child_step_ok1 with (g := fun _ => false); [exact C|]. cbn [child_ok]. split.
      * unfold result, prefixed. destruct (eval_all f h (stride n i x)); reflexivity.
      * specialize (C i). rewrite N in C by lia. exact C.
  - cbn [inv ps_parent ps_child ps_pipe] in *. destruct I as (K & N & N0 & C). split; [lia|]. split; [exact N0|]. split; [intros i L; lia|exact C].
  - cbn [inv ps_parent ps_child ps_pipe] in *. destruct I as (K & N & D & C). split; [lia|]. split; [exact N|]. split; [|exact C].
    intros j J. destruct (Nat.eq_dec j i) as [->|Q]; [exact EN|apply D; lia].
  - cbn [inv ps_parent ps_child ps_pipe] in *. destruct I as (K & N & D & C). split; [lia|]. split; [exact D|]. split; [exact C|].
    exists []. split; reflexivity.
  - cbn [inv ps_parent ps_child ps_pipe] in *. destruct I as (K & D & C & (ms & HM & ->)). split; [lia|]. split; [exact D|].
    assert (RM : result i = Ok m).
    { specialize (C i). rewrite B in C. specialize (D i L). rewrite Nat.ltb_irrefl in C. destruct (c i); try discriminate; cbn in C.
      - destruct C as (m' & R & _ & [= <-]). exact R.
      - destruct C as [_ C]. discriminate. }
    split.
    + intros j. destruct (Nat.eq_dec j i) as [->|Q].
      * rewrite fupd_eq. specialize (C i). rewrite B, Nat.ltb_irrefl in C. specialize (D i L). replace (Nat.ltb i (S i)) with true by (symmetry; apply Nat.ltb_lt; lia).
        destruct (c i); try discriminate; cbn in *.
        -- destruct C as (m' & R & Fm & _). eauto.
        -- destruct C as [_ C]. discriminate.
      * rewrite fupd_neq by exact Q. replace (Nat.ltb j (S i)) with (Nat.ltb j i); [apply C|].
        destruct (Nat.ltb_spec j i), (Nat.ltb_spec j (S i)); try reflexivity; lia.
    + exists (ms ++ [m]). assert (LM : length ms = i) by (apply mapM_length in HM; rewrite seq_length in HM; congruence).
      rewrite seq_S. split.
      * apply mapM_app; [exact HM|]. cbn [mapM plus]. rewrite RM. reflexivity.
      * rewrite collect_snoc. cbn [plus]. now rewrite LM.
  - cbn [inv ps_parent ps_child ps_pipe] in *. destruct I as (_ & D & _). specialize (D i L). rewrite CI in D. discriminate.
  - cbn [inv ps_parent ps_child ps_pipe] in *. destruct I as (K & D & C & M). split; [exact D|]. split; [|exact M].
    intros i L. specialize (C i). now replace (Nat.ltb i n) with true in C by (symmetry; now apply Nat.ltb_lt).
  - apply inv_child1; auto; try (rewrite CI; discriminate); try (rewrite CI; reflexivity); try discriminate.
    pose proof (inv_active _ _ _ _ I L ltac:(rewrite CI; reflexivity)) as A. rewrite CI in A. destruct A as [A B]. split; [|exact B].
    rewrite <- A. cbn [eval_all]. rewrite F. destruct (eval_all f (h' ++ [r]) rest); cbn; [|reflexivity]. now rewrite <- app_assoc.
  - apply inv_child1; auto; try (rewrite CI; discriminate); try (rewrite CI; reflexivity); try discriminate.
    pose proof (inv_active _ _ _ _ I L ltac:(rewrite CI; reflexivity)) as A. rewrite CI in A. destruct A as [A B]. split; [|exact B].
    exists e. rewrite <- A. cbn [eval_all]. rewrite F. reflexivity.
  - apply inv_child1; auto; try (rewrite CI; discriminate); try (rewrite CI; reflexivity); try discriminate.
    pose proof (inv_active _ _ _ _ I L ltac:(rewrite CI; reflexivity)) as A. rewrite CI in A. destruct A as [A B]. split; [|exact B].
    rewrite <- A. cbn. now rewrite app_nil_r.
  - apply inv_child; auto; try (rewrite CI; discriminate); try (rewrite CI; reflexivity); try discriminate.
    + intros j. destruct (Nat.eq_dec j i); [now right|left; now rewrite fupd_neq].
    + pose proof (inv_active _ _ _ _ I L ltac:(rewrite CI; reflexivity)) as A. rewrite CI in A. destruct A as [A B]. cbn. eauto.
Qed.
Lemma inv_steps k s s' : inv s -> steps k s s' -> inv s'.
Proof. intros I H. induction H; [exact I|]. apply IHpsteps. eapply inv_step; eauto. Qed.

(** Termination: a measure that every step decreases. *)
Definition cmeasure (i : nat) (c : cstate) : nat :=
  match c with CNew => length (stride n i x) + 3 | CRun _ t _ => length t + 2 | CSend _ => 1 | CDone | CDead => 0 end.
Definition pmeasure (p : parent) : nat :=
  match p with PStart i => 3 * n + 3 - i | PJoin i => 2 * n + 2 - i | PRecv i _ => n + 1 - i | PDone _ => 0 end.
Fixpoint csum (c : nat -> cstate) (k : nat) : nat := match k with O => 0 | S k => cmeasure k (c k) + csum c k end.
Definition measure (s : pstate) : nat := pmeasure (ps_parent s) + csum (ps_child s) n.
Lemma csum_ext c c' k : (forall j, j < k -> c j = c' j) -> csum c k = csum c' k.
Proof. intros E. induction k as [|k IH]; cbn; [reflexivity|]. rewrite E by lia. rewrite IH; [reflexivity|]. intros; apply E; lia. Qed.
Lemma csum_upd c i v : forall k, i < k -> csum (fupd c i v) k + cmeasure i (c i) = csum c k + cmeasure i v.
Proof.
  induction k as [|k IH]; intros L; [lia|]. cbn [csum]. destruct (Nat.eq_dec i k) as [->|N].
  - rewrite fupd_eq. rewrite (csum_ext (fupd c k v) c k); [lia|]. intros j J. apply fupd_neq. lia.
  - rewrite (fupd_neq c i v k) by lia. specialize (IH ltac:(lia)). lia.
Qed.
Lemma step_measure s s' : inv s -> step s s' -> measure s' < measure s.
Proof.
  intros I H. unfold measure.
  destruct H as [i c b L|c b|i c b L EN|c b|i Y c b m L B|i Y c b m L CI FI|Y c b|p i c b h' r rest vals y L CI F|p i c b h' r rest vals e L CI F|p i c b h' vals L CI|p i c b m L CI FI];
    cbn [ps_parent ps_child pmeasure] in *; try lia.
  - destruct I as (_ & N & _). pose proof (csum_upd c i (CRun h (stride n i x) []) n L) as U. cbn [ps_child] in N. rewrite (N i (le_n i)) in U. cbn [cmeasure] in U. lia.
  - pose proof (csum_upd c i CDone n L) as U. rewrite CI in U. cbn [cmeasure] in U. lia.
  - pose proof (csum_upd c i (CRun (h' ++ [r]) rest (vals ++ [y])) n L) as U. rewrite CI in U. cbn [cmeasure length] in U. lia.
  - pose proof (csum_upd c i CDead n L) as U. rewrite CI in U. cbn [cmeasure length] in U. lia.
  - pose proof (csum_upd c i (CSend vals) n L) as U. rewrite CI in U. cbn [cmeasure length] in U. lia.
  - pose proof (csum_upd c i CDone n L) as U. rewrite CI in U. cbn [cmeasure length] in U. lia.
Qed.
Theorem schedules_bounded k s : steps k init s -> k + measure s <= measure init.
Proof.
  intros H. assert (G : forall s0, inv s0 -> steps k s0 s -> k + measure s <= measure s0).
  { clear H. induction k as [|k IH]; intros s0 I H; inversion H; subst; [lia|].
    match goal with HS : step s0 ?s1, HT : steps k ?s1 s |- _ => pose proof (step_measure _ _ I HS); pose proof (IH _ (inv_step _ _ I HS) HT) end. lia. }
  apply G; [apply inv_init|exact H].
Qed.

(** A state from which no step is possible. *)
Definition stuck (s : pstate) : Prop := forall s', ~ step s s'.
Definition finished (s : pstate) : Prop := exists Y, ps_parent s = PDone Y.

(** In a stuck state every started child has ended or cannot send. *)
Lemma stuck_children s : inv s -> stuck s -> forall i, i < n ->
  match ps_child s i with CNew | CDone | CDead => True | CSend m => fits m = false | CRun _ _ _ => False end.
Proof.
  intros I ST i L. destruct s as [p c b]. cbn in *. destruct (c i) as [|h' todo vals|m| |] eqn:CI; auto.
  - destruct todo as [|r rest]; [eapply ST; eapply st_end; eauto|]. destruct (f h' r) eqn:F; [eapply ST; eapply st_row; eauto|eapply ST; eapply st_raise; eauto].
  - destruct (fits m) eqn:F; [|reflexivity]. exfalso. eapply ST. eapply st_send; eauto.
Qed.

(** Everything returns and fits: every schedule ends, and it ends with all values. *)
Theorem par_success ms : mapM result (seq 0 n) = Ok ms -> (forall m, In m ms -> fits m = true) ->
  forall k s, steps k init s -> stuck s -> ps_parent s = PDone (collect n 0 (repeat q0 (length x)) ms).
Proof.
  intros HM FM k s H ST. assert (I : inv s) by (eapply inv_steps; eauto using inv_init). pose proof (stuck_children s I ST) as SC.
  assert (RES : forall i, i < n -> exists m, result i = Ok m /\ fits m = true).
  { intros i L. destruct (mapM_nth _ _ _ HM i i) as (m & R & Nm).
    - rewrite (nth_error_nth' _ 0) by (now rewrite seq_length). now rewrite seq_nth.
    - exists m. split; [exact R|]. apply FM. eapply nth_error_In; eauto. }
  destruct s as [p c b]. cbn in *. destruct p as [i|i|i Y|Y]; cbn [inv ps_parent ps_child ps_pipe] in I.
  - exfalso. destruct I as (K & _). destruct (Nat.eq_dec i n) as [->|N]; [eapply ST; apply st_started|eapply ST; apply st_start; lia].
  - exfalso. destruct I as (K & N & _ & C). destruct (Nat.eq_dec i n) as [->|NE]; [eapply ST; apply st_joined|].
    assert (L : i < n) by lia. destruct (RES i L) as (m & R & Fm). specialize (SC i L). specialize (N i L). specialize (C i).
    destruct (c i) as [|h' todo vals|m'| |] eqn:CI; cbn in *; try contradiction.
    + destruct C as [R' _]. congruence.
    + eapply ST. apply st_join; [exact L|]. now rewrite CI.
    + eapply ST. apply st_join; [exact L|]. now rewrite CI.
  - exfalso. destruct I as (K & D & C & _). destruct (Nat.eq_dec i n) as [->|NE]; [eapply ST; apply st_received|].
    assert (L : i < n) by lia. destruct (RES i L) as (m & R & Fm). specialize (D i L). specialize (C i). rewrite Nat.ltb_irrefl in C.
    destruct (c i) as [|h' todo vals|m'| |] eqn:CI; cbn in *; try discriminate.
    + destruct C as (m' & R' & _ & B). eapply ST. eapply st_recv; eauto.
    + destruct C as [[e R'] _]. congruence.
  - destruct I as (_ & _ & (ms' & HM' & ->)). rewrite HM in HM'. now injection HM' as <-.
Qed.

(** The parent can only finish with the values of all children. *)
Theorem par_safe k s Y : steps k init s -> ps_parent s = PDone Y ->
  exists ms, mapM result (seq 0 n) = Ok ms /\ (forall m, In m ms -> fits m = true) /\ Y = collect n 0 (repeat q0 (length x)) ms.
Proof.
  intros H E. assert (I : inv s) by (eapply inv_steps; eauto using inv_init). destruct s as [p c b]. cbn in E. subst p.
  cbn [inv ps_parent ps_child ps_pipe] in I. destruct I as (D & C & (ms & HM & ->)). exists ms. split; [exact HM|]. split; [|reflexivity].
  intros m IM. apply In_nth_error in IM. destruct IM as (i & Hi).
  assert (L : i < n) by (rewrite <- (seq_length n 0), (eq_sym (mapM_length _ _ _ HM)); apply nth_error_Some; congruence).
  assert (R : result i = Ok m).
  { destruct (mapM_nth _ _ _ HM i i) as (m' & R & Nm); [rewrite (nth_error_nth' _ 0) by (now rewrite seq_length); now rewrite seq_nth|]. congruence. }
  specialize (D i L). specialize (C i L). destruct (c i); try discriminate; cbn in C.
  - destruct C as (m' & R' & Fm & _). congruence.
  - destruct C as [[e R'] _]. congruence.
Qed.
End Par.
