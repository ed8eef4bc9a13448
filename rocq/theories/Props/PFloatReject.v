(** C138: random designs under constraints in double precision. *)
From Coq Require Import List ZArith Bool Reals Lra Lia.
From Flocq Require Import Core IEEE754.BinarySingleNaN.
From Verif.Model Require Import Py Float FloatRow FloatStop FloatCons FloatPipe FloatReject.
From Verif.Spec Require Import FloatSpec FloatConsSpec FloatRowSpec FloatPipeSpec FloatRejectSpec.
From Verif.Proof Require Import Num FloatP FloatStopP FloatConsP FloatPipeP FloatRejectP.
From Verif.Props Require Import PFloatCons.
Import ListNotations.
Local Open Scope nat_scope.

(** Whatever is returned: as many rows as asked for, all of them configurations whose computed constraints are at most 0. *)
Theorem C138_rows : forall fuel ks es u c n rows, fspace ks -> widths ks -> fair ks u c -> get_samples_f fuel ks es u c n = Some (Ok rows) ->
  length rows = n /\ Forall (configuration ks) rows /\ Forall (kept es) rows.
Proof.
  intros fuel ks es u c n rows SP WI FA H. unfold get_samples_f in H. destruct es as [|e es'].
  - destruct (round_ok ks u c n SP WI FA 0) as (D & E & L & F). rewrite E in H. injection H as <-. split; [exact L|]. split; [exact F|]. apply Forall_forall. intros x _ e [].
  - destruct (reject_spec ks (e :: es') u c n fuel [] [] rows) as (Ds & V & R & S & L & ->); [intros [|t] D K; discriminate K|constructor|exact H|].
    split; [rewrite firstn_length; lia|]. pose proof (rounds_conf ks u c n SP WI FA Ds R) as F. rewrite Forall_forall in F. pose proof (sel_in _ _ _ S) as Q. rewrite Forall_forall in Q.
    split; apply Forall_forall; intros x I; assert (J : In x V) by (rewrite <- (firstn_skipn n V); apply in_or_app; now left); destruct (Q x J); auto.
Qed.
Print Assumptions C138_rows.
(** In exact arithmetic such a row violates a constraint by no more than the tolerance of C120, and a comparison of two columns or of a column and a number
    not at all. *)
Theorem C138_margin : forall fuel ks es u c n rows, fspace ks -> widths ks -> fair ks u c -> get_samples_f fuel ks es u c n = Some (Ok rows) ->
  forall row e, In row rows -> In e es -> (regular row e -> (exact row e <= tolerance row e)%R) /\
  (forall a b, e = XSub a b -> leaf a -> leaf b -> (forall v, a = XNum v \/ b = XNum v -> number v) -> (exact row a <= exact row b)%R).
Proof.
  intros fuel ks es u c n rows SP WI FA H row e Ir Ie. destruct (C138_rows _ _ _ _ _ _ _ SP WI FA H) as (_ & F & K).
  rewrite Forall_forall in F, K. specialize (F row Ir). destruct (K row Ir e Ie) as (v & E & L).
  assert (S : satisfies [e] row = Ok true) by (cbn [satisfies]; rewrite E; cbn [bind]; apply fle_zero in L; now rewrite L).
  split; [intros R; now apply (C120_margin row e true R S)|]. intros a b -> La Lb NL. apply (C120_difference row a b true La Lb); [|exact S|reflexivity].
  assert (G : forall d, leaf d -> (forall v0, d = XNum v0 -> number v0) -> forall w, xeval row d = Ok w -> number w).
  { intros d Ld Nd w Ew. destruct d as [w0|i| | | | | | |]; try contradiction; cbn [xeval] in Ew; [injection Ew as <-; now apply Nd|].
    destruct (nth_error row i) as [x|] eqn:Ex; [|discriminate Ew]. injection Ew as <-. apply (configuration_numbers ks row (proj1 (proj2 SP)) F). eapply nth_error_In; exact Ex. }
  intros w [Ew|Ew]; (eapply G; [| |exact Ew]; auto; intros v0 Hv; eapply NL; eauto).
Qed.
Print Assumptions C138_margin.
(** They are the first rows drawn that pass, in the order in which they were drawn. *)
Theorem C138_first : forall fuel ks es u c n rows, es <> [] -> get_samples_f fuel ks es u c n = Some (Ok rows) ->
  exists Ds V, rounds ks u c n Ds /\ selected (kept es) (concat Ds) V /\ n <= length V /\ rows = firstn n V.
Proof.
  intros fuel ks es u c n rows NE H. unfold get_samples_f in H. destruct es as [|e es']; [contradiction|].
  apply (reject_spec ks (e :: es') u c n fuel [] [] rows); [intros [|t] D K; discriminate K|constructor|exact H].
Qed.
Print Assumptions C138_first.
(** It comes to an end exactly if enough rows pass in finitely many rounds, and then without an error. *)
Theorem C138_ends : forall ks es u c n, fspace ks -> widths ks -> fair ks u c -> closed ks es -> es <> [] ->
  ((exists fuel r, get_samples_f fuel ks es u c n = Some r) <-> exists Ds V, rounds ks u c n Ds /\ selected (kept es) (concat Ds) V /\ n <= length V) /\
  forall fuel e, get_samples_f fuel ks es u c n <> Some (Raise e).
Proof.
  intros ks es u c n SP WI FA CL NE. assert (NR : forall fuel e, get_samples_f fuel ks es u c n <> Some (Raise e)).
  { intros fuel e. unfold get_samples_f. destruct es as [|e0 es']; [contradiction|]. now apply reject_never_raises. }
  split; [|exact NR]. split.
  - intros (fuel & [rows|e] & H); [|destruct (NR _ _ H)]. destruct (C138_first fuel ks es u c n rows NE H) as (Ds & V & A & B & C & _). eauto.
  - intros (Ds & V & R & S & L). destruct (reject_ends ks es u c n SP WI FA CL Ds V R S L (length Ds) [] Ds []) as (rows & E); auto; [constructor|].
    exists (Datatypes.S (length Ds)), (Ok rows). unfold get_samples_f. destruct es; [contradiction|exact E].
Qed.
Print Assumptions C138_ends.
(** If no configuration passes it never ends. *)
Theorem C138_never : forall ks es u c n, fspace ks -> widths ks -> fair ks u c -> closed ks es -> es <> [] -> 0 < n -> (forall row, configuration ks row -> ~ kept es row) ->
  forall fuel, get_samples_f fuel ks es u c n = None.
Proof.
  intros ks es u c n SP WI FA CL NE P NK fuel. destruct (get_samples_f fuel ks es u c n) as [[rows|e]|] eqn:H; [| |reflexivity].
  - exfalso. destruct (C138_rows _ _ _ _ _ _ _ SP WI FA H) as (L & F & K). destruct rows as [|x rows]; [cbn in L; lia|]. inversion F; subst. inversion K; subst. eapply NK; eauto.
  - exfalso. exact (proj2 (C138_ends ks es u c n SP WI FA CL NE) fuel e H).
Qed.
Print Assumptions C138_never.
(** That no row passes does not mean that none is feasible: ((x0 + x1) - x1) - x0 is 0 on every row, and at (3, 2^53), where it rounds to 1, the design never ends. *)
Definition wide : list fkind := [FDisc [of_Z 3]; FDisc [of_Z (2 ^ 53)]].
Definition nought : fexpr := XSub (XSub (XAdd (XCol 0) (XCol 1)) (XCol 1)) (XCol 0).
Theorem C138_hangs_refuted : (forall row, configuration wide row -> exact row nought = 0%R) /\
  forall u c n fuel, (forall t i k, unit_draw (u t i k)) -> (forall t i k, c t i k = 0) -> 0 < n -> get_samples_f fuel wide [nought] u c n = None.
Proof.
  split.
  - intros row C. inversion C as [|? a ? r A C1]; subst. inversion C1 as [|? b ? r' B C2]; subst. inversion C2; subst. cbn [exact nought nth_error]. ring.
  - intros u c n fuel U C P. apply C138_never; auto; try discriminate.
    + split; [discriminate|]. split.
      * constructor; [|constructor; [|constructor]]; (split; [discriminate|]; intros v [<-|[]]; apply of_Z_ok; lia).
      * intros m [H|[H|[]]]; discriminate H.
    + intros lo hi [H|[H|[]]]; discriminate H.
    + split; [exact U|]. split; intros t i k d H; rewrite C; destruct k as [|[|k]]; cbn in H; try discriminate H; try (injection H as <-; cbn; lia). destruct k; discriminate H.
      destruct k; discriminate H.
    + intros e i [<-|[]] M. cbn in M |- *. lia.
    + intros row CO K. inversion CO as [|? a ? r A C1]; subst. inversion C1 as [|? b ? r' B C2]; subst. inversion C2; subst. destruct A as [<-|[]]. destruct B as [<-|[]].
      apply (satisfies_kept [nought] _ false) in K; [discriminate K|vm_compute; reflexivity].
Qed.
Print Assumptions C138_hangs_refuted.

(** x0 - 0 <= 0 on the categories 0, 1, 2: two rounds of two rows are needed for two that pass. *)
Definition cat3 : list fkind := [FCat 3].
Definition low : fexpr := XSub (XCol 0) (XNum (of_Z 0)).
Definition draws (t i _ : nat) : nat := if Nat.eqb i t then 0 else 2.
Example C138_nonvacuous : fspace cat3 /\ widths cat3 /\ fair cat3 (fun _ _ _ => of_Z 0) draws /\ closed cat3 [low] /\
  get_samples_f 2 cat3 [low] (fun _ _ _ => of_Z 0) draws 2 = None /\ get_samples_f 3 cat3 [low] (fun _ _ _ => of_Z 0) draws 2 = Some (Ok [[of_Z 0]; [of_Z 0]]).
Proof.
  split. { split; [discriminate|]. split; [constructor; [cbn; lia|constructor]|]. intros m [H|[]]. injection H as <-. cbn. lia. }
  split. { intros lo hi [H|[]]. discriminate H. }
  split. { split; [|split].
    - intros t i k. destruct (of_Z_ok 0) as [A B]; [lia|]. split; [exact A|]. rewrite B. lra.
    - intros t i [|[|k]] d H; discriminate H.
    - intros t i k m H. destruct k as [|[|k]]; cbn in H; try discriminate H. injection H as <-. unfold draws. destruct (Nat.eqb i t); lia. }
  split. { intros e i [<-|[]] M. cbn in M |- *. lia. }
  split; [vm_compute; reflexivity|]. vm_compute. reflexivity.
Qed.
