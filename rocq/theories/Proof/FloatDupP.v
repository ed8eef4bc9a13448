(** Lemmas about the duplicate manager on doubles. *)
From Coq Require Import Reals List QArith Qcanon Qreals Bool Lra.
From Flocq Require Import Core IEEE754.BinarySingleNaN.
From Verif.Model Require Import Py Space Optim Float FloatDup.
From Verif.Spec Require Import FloatSpec FloatDupSpec.
From Verif.Proof Require Import Num FloatP.
Import ListNotations.
Local Open Scope R_scope.

Lemma feq_ok x y : number x -> number y -> feq x y = Req_bool (val x) (val y).
Proof. intros A B. unfold feq, val. now apply Beqb_correct. Qed.
Lemma feq_spec x y : feq x y = true <-> same_number x y.
Proof.
  destruct (is_finite x) eqn:A; [destruct (is_finite y) eqn:B|].
  - rewrite feq_ok by assumption. split.
    + intros H. destruct (Req_bool_spec (val x) (val y)) as [E|]; [|discriminate]. left. auto.
    + intros [(_ & _ & E)|(s & -> & _)]; [|discriminate A]. now rewrite Req_bool_true.
  - split; [intros H|intros [(_ & N & _)|(s & -> & _)]; [unfold number in N; congruence|discriminate A]].
    exfalso. destruct x, y; try discriminate A; try discriminate B; try discriminate H; destruct s, s0; discriminate H.
  - split; [intros H|intros [(N & _)|(s & -> & ->)]; [unfold number in N; congruence|destruct s; reflexivity]].
    right. destruct x; try discriminate A; [|destruct y; discriminate H]. exists s. split; [reflexivity|].
    destruct y; try (destruct s; discriminate H); destruct s, s0; try discriminate H; reflexivity.
Qed.
Lemma tuple_eq_spec a b : tuple_eq a b = true <-> same_row a b.
Proof.
  unfold same_row. revert b. induction a as [|x a IH]; intros [|y b]; cbn [tuple_eq].
  - split; constructor. 
  - split; [discriminate|intros H; inversion H].
  - split; [discriminate|intros H; inversion H].
  - rewrite andb_true_iff, feq_spec, IH. split; [intros [A B]; now constructor|intros H; inversion H; auto].
Qed.
Lemma nonzero_spec x : negb (feq x f0) = true <-> ~ (number x /\ val x = 0).
Proof.
  destruct f0_ok as [N0 V0]. destruct (feq x f0) eqn:E; cbn [negb].
  - split; [discriminate|]. intros H. exfalso. apply H. apply feq_spec in E. destruct E as [(A & _ & B)|(s & _ & C)]; [|rewrite C in N0; discriminate N0]. split; [exact A|]. now rewrite B.
  - split; [|reflexivity]. intros _ [A B]. assert (feq x f0 = true); [|congruence]. apply feq_spec. left. rewrite V0. auto.
Qed.
Lemma any_spec M : any_f M = true <-> exists P, M = Some P /\ has_nonzero_f P.
Proof.
  destruct M as [M|]; cbn [any_f]; [|split; [discriminate|intros (P & E & _); discriminate E]]. rewrite existsb_exists. split.
  - intros (r & I & H). apply existsb_exists in H as (x & J & H). exists M. split; [reflexivity|]. exists r, x. split; [exact I|]. split; [exact J|]. now apply nonzero_spec.
  - intros (P & E & r & x & I & J & H). injection E as <-. exists r. split; [exact I|]. apply existsb_exists. exists x. split; [exact J|]. now apply nonzero_spec.
Qed.
Lemma points_spec X P I r : In r (unique_points_f X P I) <-> In r X \/ (exists M, P = Some M /\ has_nonzero_f M /\ In r M) \/ (exists M, I = Some M /\ has_nonzero_f M /\ In r M).
Proof.
  assert (G : forall P, In r (if any_f P then match P with Some P => P | None => [] end else []) <-> exists M, P = Some M /\ has_nonzero_f M /\ In r M).
  { intros Q. destruct (any_f Q) eqn:E.
    - apply any_spec in E as (M & -> & H). split; [eauto|]. intros (M' & E & _ & J). now injection E as <-.
    - split; [intros []|]. intros (M & -> & H & _). assert (any_f (Some M) = true); [|congruence]. apply any_spec. eauto. }
  unfold unique_points_f. rewrite !in_app_iff, !G. reflexivity.
Qed.
Lemma duplicate_spec X P I t : is_duplicate_f X P I t = true <-> exists r, same_row t r /\
  (In r X \/ (exists M, P = Some M /\ has_nonzero_f M /\ In r M) \/ (exists M, I = Some M /\ has_nonzero_f M /\ In r M)).
Proof.
  unfold is_duplicate_f. rewrite existsb_exists. split.
  - intros (r & A & B). exists r. rewrite tuple_eq_spec in B. rewrite points_spec in A. auto.
  - intros (r & B & A). exists r. rewrite tuple_eq_spec. rewrite points_spec. auto.
Qed.

(** rational rows *)
Lemma stands_eq x y p q : stands_for x p -> stands_for y q -> feq x y = qceq p q.
Proof.
  intros [A1 A2] [B1 B2]. rewrite feq_ok by assumption. rewrite A2, B2. destruct (qceq p q) eqn:E.
  - apply qceq_spec in E. subst q. now apply Req_bool_true.
  - apply Req_bool_false. intros H. apply eqR_Qeq in H. apply Qc_is_canon in H. subst q. rewrite (proj2 (qceq_spec p p) eq_refl) in E. discriminate.
Qed.
Lemma row_eq_for a b v w : row_for a v -> row_for b w -> tuple_eq a b = veqb v w.
Proof.
  intros H. revert b w. induction H as [|x p a v S H IH]; intros b w K; destruct K as [|y q b w T K]; try reflexivity.
  cbn [tuple_eq veqb]. rewrite (stands_eq x y p q S T), (IH b w K). reflexivity.
Qed.
Lemma exists_for t v A V : row_for t v -> matrix_for A V -> existsb (tuple_eq t) A = existsb (veqb v) V.
Proof. intros H K. induction K as [|a w A V S K IH]; [reflexivity|]. cbn [existsb]. now rewrite (row_eq_for t a v w H S), IH. Qed.
Lemma zero_for : stands_for f0 q0.
Proof. destruct f0_ok as [A B]. split; [exact A|]. rewrite B. unfold q0. change (0 = Q2R (0 # 1)). unfold Q2R. cbn. lra. Qed.
Lemma any_for A V : option_for A V -> any_f A = np_any V.
Proof.
  destruct A as [A|], V as [V|]; cbn [option_for]; try contradiction; [|reflexivity]. intros H. cbn [any_f np_any].
  induction H as [|a v A V S H IH]; [reflexivity|]. cbn [existsb]. rewrite IH. f_equal. clear - S.
  induction S as [|x p a v S H IH]; [reflexivity|]. cbn [existsb]. rewrite IH, (stands_eq x f0 p q0 S zero_for). reflexivity.
Qed.
Lemma matrix_app A B V W : matrix_for A V -> matrix_for B W -> matrix_for (A ++ B) (V ++ W).
Proof. apply Forall2_app. Qed.
Lemma duplicate_for sp X P I t XQ PQ IQ tq : matrix_for X XQ -> option_for P PQ -> option_for I IQ -> row_for t tq ->
  is_duplicate_f X P I t = is_zipped_x_duplicate (duplicate_manager sp XQ PQ IQ) tq.
Proof.
  intros HX HP HI Ht. unfold is_duplicate_f, is_zipped_x_duplicate, vmem, duplicate_manager, unique_points_f. cbn [dm_points].
  apply exists_for; [exact Ht|]. rewrite (any_for _ _ HP), (any_for _ _ HI). repeat apply matrix_app; [exact HX| |].
  - destruct (np_any PQ); [|constructor]. destruct P, PQ; cbn in HP; try contradiction; [exact HP|constructor].
  - destruct (np_any IQ); [|constructor]. destruct I, IQ; cbn in HI; try contradiction; [exact HI|constructor].
Qed.
