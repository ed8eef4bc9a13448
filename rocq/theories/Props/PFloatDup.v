(** C118: recognising duplicates among doubles.  Specification: Spec/FloatSpec.v, Spec/FloatDupSpec.v.  Model: Model/FloatDup.v. *)
From Coq Require Import Reals List QArith Qcanon Qreals Bool Lra.
From Flocq Require Import Core IEEE754.BinarySingleNaN.
From Verif.Model Require Import Py Space Optim Float FloatDup.
From Verif.Spec Require Import FloatSpec FloatDupSpec.
From Verif.Proof Require Import Num FloatP FloatDupP.
Import ListNotations.
Local Open Scope R_scope.

(** A row is a duplicate exactly when it is, entry by entry, the same numbers as a known row: an evaluated one, or one of the pending or
    ignored rows, provided that matrix has an entry other than zero. *)
Theorem C118_duplicates : forall X pending ignored t,
  (forall P, pending = Some P -> has_nonzero_f P) -> (forall P, ignored = Some P -> has_nonzero_f P) ->
  (is_duplicate_f X pending ignored t = true <-> exists r, known_rows X pending ignored r /\ same_row t r).
Proof.
  intros X P J t HP HJ. rewrite duplicate_spec. unfold known_rows. split.
  - intros (r & S & [A|[(M & E & _ & A)|(M & E & _ & A)]]); exists r; (split; [|exact S]); [now left|right; left; eauto|right; right; eauto].
  - intros (r & [A|[(M & E & A)|(M & E & A)]] & S); exists r; (split; [exact S|]); [now left|right; left; eauto|right; right; eauto].
Qed.
Print Assumptions C118_duplicates.
(** The sign of a zero does not matter, and no two different numbers are confused, however close. *)
Theorem C118_numbers : forall X t, (forall x, In x t -> number x) -> (forall r x, In r X -> In x r -> number x) ->
  (is_duplicate_f X None None t = true <-> exists r, In r X /\ map val r = map val t).
Proof.
  intros X t Ht HX. rewrite C118_duplicates by discriminate. unfold known_rows. split.
  - intros (r & [A|[(M & E & _)|(M & E & _)]] & S); try discriminate E. exists r. split; [exact A|]. specialize (HX r). clear - S Ht HX A.
    specialize (fun x => HX x A). clear A. induction S as [|x y a b H S IH]; [reflexivity|]. cbn [map]. f_equal.
    + destruct H as [(_ & _ & E)|(s & -> & _)]; [now symmetry|]. specialize (Ht (B754_infinity s) (or_introl eq_refl)). discriminate Ht.
    + apply IH; intros z I; [apply Ht|apply HX]; now right.
  - intros (r & A & E). exists r. split; [now left|]. specialize (HX r). specialize (fun x => HX x A). clear A. unfold same_row. revert t Ht E.
    induction r as [|y r IH]; intros [|x t] Ht E; try discriminate; [constructor|]. cbn [map] in E. injection E as E1 E2. constructor.
    + left. split; [apply Ht; now left|]. split; [apply HX; now left|now symmetry].
    + apply IH; [|intros z I; apply Ht; now right|exact E2]. intros z I. apply HX. now right.
Qed.
Print Assumptions C118_numbers.
(** A row with a NaN is never recognised, not even among the evaluated rows it is one of. *)
Theorem C118_nan_refuted : forall X pending ignored t, (exists x, In x t /\ nan_p x = true) -> is_duplicate_f (t :: X) pending ignored t = false.
Proof.
  intros X P J t (x & I & N). destruct (is_duplicate_f (t :: X) P J t) eqn:E; [exfalso|reflexivity]. apply duplicate_spec in E as (r & S & _). clear - S I N.
  induction S as [|a b t r H S IH]; [destruct I|]. destruct I as [->|I]; [|now apply IH]. destruct x; try discriminate N. destruct H as [(A & _)|(s & A & _)]; discriminate A.
Qed.
Print Assumptions C118_nan_refuted.
(** A pending or ignored matrix of zeros only, of either sign, is not looked at. *)
Theorem C118_zeros_refuted : forall X P t, (forall r x, In r P -> In x r -> number x /\ val x = 0) ->
  is_duplicate_f X (Some P) None t = is_duplicate_f X None None t /\ is_duplicate_f X None (Some P) t = is_duplicate_f X None None t /\
  is_duplicate_f [] (Some P) (Some P) t = false.
Proof.
  intros X P t H. assert (E : any_f (Some P) = false).
  { destruct (any_f (Some P)) eqn:E; [exfalso|reflexivity]. apply any_spec in E as (M & E & r & x & I & J & K). injection E as <-. apply K. eauto. }
  unfold is_duplicate_f, unique_points_f. rewrite E. cbn [any_f]. auto.
Qed.
Print Assumptions C118_zeros_refuted.
(** On rational numbers that doubles represent exactly, this is the duplicate manager of C22 (and with it of C24, C26, C80, C90). *)
Theorem C118_exact : forall sp X pending ignored t XQ pendingQ ignoredQ tQ,
  matrix_for X XQ -> option_for pending pendingQ -> option_for ignored ignoredQ -> row_for t tQ ->
  is_duplicate_f X pending ignored t = is_zipped_x_duplicate (duplicate_manager sp XQ pendingQ ignoredQ) tQ.
Proof. exact duplicate_for. Qed.
Print Assumptions C118_exact.

(** -0.0 is a duplicate of 0.0, the next double after 1 is not a duplicate of 1. *)
Example C118_nonvacuous :
  is_duplicate_f [[B754_zero false; of_Z 1]] None None [B754_zero true; of_Z 1] = true /\
  is_duplicate_f [[of_Z 1]] None None [lit 4503599627370497 (-52)] = false /\
  is_duplicate_f [] (Some [[B754_nan]; [of_Z 0]]) None [B754_zero true] = true /\
  (exists x, In x [of_Z 1; B754_nan] /\ nan_p x = true) /\ has_nonzero_f [[B754_nan]; [of_Z 0]] /\
  stands_for (of_Z 3) (Q2Qc 3) /\ matrix_for [[of_Z 3; f0]] [[Q2Qc 3; q0]].
Proof.
  assert (T : stands_for (of_Z 3) (Q2Qc 3)).
  { destruct (of_Z_ok 3) as [A B]; [discriminate|]. split; [exact A|]. rewrite B. change (3 = Q2R (3 # 1)). unfold Q2R. cbn. lra. }
  do 3 (split; [vm_compute; reflexivity|]). split; [exists B754_nan; split; [right; left; reflexivity|reflexivity]|].
  split. { exists [B754_nan], B754_nan. split; [left; reflexivity|]. split; [left; reflexivity|]. intros [A _]. discriminate A. }
  split; [exact T|]. constructor; [|constructor]. constructor; [exact T|]. constructor; [exact zero_for|constructor].
Qed.
