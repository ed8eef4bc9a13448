(** Lemmas about numbers, lists and the exception monad. *)
From Coq Require Import String List ZArith QArith Qcanon Bool Lqa Lia Field.
From Verif.Model Require Import Py.
Import ListNotations.
Local Open Scope nat_scope.

Lemma Qc_eq_Q (x y : Qc) : x = y <-> (this x == this y)%Q.
Proof. split; [intros ->; reflexivity | apply Qc_is_canon]. Qed.

Lemma this_plus (x y : Qc) : (this (x + y)%Qc == this x + this y)%Q.
Proof. exact (Qred_correct _). Qed.
Lemma this_mult (x y : Qc) : (this (x * y)%Qc == this x * this y)%Q.
Proof. exact (Qred_correct _). Qed.
Lemma this_opp (x : Qc) : (this (- x)%Qc == - this x)%Q.
Proof. exact (Qred_correct _). Qed.
Lemma this_minus (x y : Qc) : (this (x - y)%Qc == this x - this y)%Q.
Proof. unfold Qcminus. rewrite this_plus, this_opp. reflexivity. Qed.
Lemma this_Q2Qc q : (this (Q2Qc q) == q)%Q.
Proof. exact (Qred_correct _). Qed.

(** Turn goals and hypotheses over [Qc] into ones over [Q]. *)
Ltac qc2q :=
  unfold q0, q1 in *;
  repeat match goal with
         | H : @eq Qc ?x ?y |- _ => apply (proj1 (Qc_eq_Q x y)) in H
         | |- @eq Qc ?x ?y => apply (proj2 (Qc_eq_Q x y))
         | H : ~ (@eq Qc ?x ?y) |- _ =>
             let H' := fresh in
             assert (H' : ~ (this x == this y)%Q)
               by (let E := fresh in intro E; apply H; apply (proj2 (Qc_eq_Q x y)); exact E);
             clear H
         end;
  unfold Qcle, Qclt in *;
  repeat match goal with
         | H : context [this (_ + _)%Qc] |- _ => rewrite this_plus in H
         | H : context [this (_ * _)%Qc] |- _ => rewrite this_mult in H
         | H : context [this (_ - _)%Qc] |- _ => rewrite this_minus in H
         | H : context [this (- _)%Qc] |- _ => rewrite this_opp in H
         | H : context [this (Q2Qc _)] |- _ => rewrite this_Q2Qc in H
         | |- context [this (_ + _)%Qc] => rewrite this_plus
         | |- context [this (_ * _)%Qc] => rewrite this_mult
         | |- context [this (_ - _)%Qc] => rewrite this_minus
         | |- context [this (- _)%Qc] => rewrite this_opp
         | |- context [this (Q2Qc _)] => rewrite this_Q2Qc
         end.
Ltac qclra := qc2q; lra.
Ltac qcnra := qc2q; nra.

Lemma qcle_spec x y : qcle x y = true <-> (x <= y)%Qc.
Proof. unfold qcle, Qcle. apply Qle_bool_iff. Qed.
Lemma qcle_false x y : qcle x y = false <-> (y < x)%Qc.
Proof.
  unfold qcle, Qclt. rewrite <- not_true_iff_false, Qle_bool_iff.
  split; intro H. apply Qnot_le_lt; auto. apply Qlt_not_le; auto.
Qed.
Lemma qclt_spec x y : qclt x y = true <-> (x < y)%Qc.
Proof. unfold qclt. rewrite negb_true_iff. apply qcle_false. Qed.
Lemma qclt_false x y : qclt x y = false <-> (y <= x)%Qc.
Proof. unfold qclt. rewrite negb_false_iff. apply qcle_spec. Qed.
Lemma qceq_spec x y : qceq x y = true <-> x = y.
Proof. unfold qceq. rewrite Qeq_bool_iff. symmetry. apply Qc_eq_Q. Qed.
Lemma qceq_false x y : qceq x y = false <-> x <> y.
Proof. rewrite <- not_true_iff_false, qceq_spec. tauto. Qed.
Lemma qceq_refl x : qceq x x = true.
Proof. apply qceq_spec; reflexivity. Qed.
Lemma qclt_irrefl x : qclt x x = false.
Proof. apply qclt_false. apply Qcle_refl. Qed.

Ltac qcases :=
  repeat match goal with
  | H : qcle _ _ = true |- _ => apply qcle_spec in H
  | H : qcle _ _ = false |- _ => apply qcle_false in H
  | H : qclt _ _ = true |- _ => apply qclt_spec in H
  | H : qclt _ _ = false |- _ => apply qclt_false in H
  | H : qceq _ _ = true |- _ => apply qceq_spec in H
  | H : qceq _ _ = false |- _ => apply qceq_false in H
  end.

Goal forall a b c : Qc, (a <= b -> b < c -> a + b < c + c + (b - c))%Qc.
Proof. intros. qclra. Qed.
Goal forall a b : Qc, a = b -> (a + 1 = b + 1)%Qc.
Proof. intros. qclra. Qed.
Lemma Qcsq_nonneg (a : Qc) : (0 <= a * a)%Qc.
Proof. qc2q. nra. Qed.

Lemma z2q_inj a b : z2q a = z2q b -> a = b.
Proof.
  unfold z2q. intro H. apply (proj1 (Qc_eq_Q _ _)) in H.
  rewrite !this_Q2Qc in H. unfold Qeq in H; simpl in H. lia.
Qed.
Lemma z2q_this z : this (z2q z) = inject_Z z.
Proof.
  unfold z2q. simpl. change (Qred (inject_Z z) = inject_Z z).
  unfold inject_Z, Qred. destruct (Z.ggcd z 1) as [g [aa bb]] eqn:E.
  pose proof (Z.ggcd_gcd z 1) as G. pose proof (Z.ggcd_correct_divisors z 1) as D.
  rewrite E in *. simpl in *. rewrite Z.gcd_1_r in G. subst g. destruct D as [D1 D2].
  assert (aa = z) by lia. assert (bb = 1%Z) by lia. subst bb. rewrite H. reflexivity.
Qed.
Lemma nat2q_z n : nat2q n = z2q (Z.of_nat n).
Proof. reflexivity. Qed.
Lemma py_int_z2q z : py_int (z2q z) = z.
Proof. unfold py_int. rewrite z2q_this. simpl. apply Z.quot_1_r. Qed.
Lemma py_int_nat2q n : py_int (nat2q n) = Z.of_nat n.
Proof. rewrite nat2q_z. apply py_int_z2q. Qed.
Lemma nat2q_inj a b : nat2q a = nat2q b -> a = b.
Proof. rewrite !nat2q_z. intro H. apply z2q_inj in H. lia. Qed.
Lemma z2q_plus a b : z2q (a + b) = (z2q a + z2q b)%Qc.
Proof.
  apply Qc_eq_Q. rewrite this_plus. unfold z2q. rewrite !this_Q2Qc.
  rewrite inject_Z_plus. reflexivity.
Qed.
Lemma z2q_mult a b : z2q (a * b) = (z2q a * z2q b)%Qc.
Proof.
  apply Qc_eq_Q. rewrite this_mult. unfold z2q. rewrite !this_Q2Qc.
  rewrite inject_Z_mult. reflexivity.
Qed.
Lemma z2q_le a b : (z2q a <= z2q b)%Qc <-> (a <= b)%Z.
Proof. unfold Qcle. rewrite !z2q_this. unfold Qle; simpl. lia. Qed.
Lemma z2q_lt a b : (z2q a < z2q b)%Qc <-> (a < b)%Z.
Proof. unfold Qclt. rewrite !z2q_this. unfold Qlt; simpl. lia. Qed.
Lemma nat2q_0 : nat2q 0 = 0%Qc. Proof. reflexivity. Qed.
Lemma nat2q_1 : nat2q 1 = 1%Qc. Proof. apply Qc_is_canon. reflexivity. Qed.
Lemma nat2q_S n : nat2q (S n) = (nat2q n + 1)%Qc.
Proof.
  rewrite !nat2q_z. rewrite Nat2Z.inj_succ. unfold Z.succ. rewrite z2q_plus. f_equal.
Qed.
Lemma nat2q_plus a b : nat2q (a + b) = (nat2q a + nat2q b)%Qc.
Proof. rewrite !nat2q_z, Nat2Z.inj_add. apply z2q_plus. Qed.
Lemma nat2q_mult a b : nat2q (a * b) = (nat2q a * nat2q b)%Qc.
Proof. rewrite !nat2q_z, Nat2Z.inj_mul. apply z2q_mult. Qed.
Lemma nat2q_le a b : (nat2q a <= nat2q b)%Qc <-> (a <= b)%nat.
Proof. rewrite !nat2q_z, z2q_le. lia. Qed.
Lemma nat2q_lt a b : (nat2q a < nat2q b)%Qc <-> (a < b)%nat.
Proof. rewrite !nat2q_z, z2q_lt. lia. Qed.

Lemma nat2q_diff j k (c : nat) : j + c <= k -> (nat2q c <= nat2q k - nat2q j)%Qc.
Proof. intros H. apply nat2q_le in H. rewrite nat2q_plus in H. qclra. Qed.

(** division *)
Lemma this_inv (x : Qc) : (this (/ x)%Qc == / this x)%Q.
Proof. exact (Qred_correct _). Qed.
Lemma Qcinv_pos (y : Qc) : (0 < y)%Qc -> (0 < / y)%Qc.
Proof. unfold Qclt. intro H. rewrite this_inv. apply Qinv_lt_0_compat. exact H. Qed.
Lemma Qcmult_pos (x y : Qc) : (0 < x)%Qc -> (0 < y)%Qc -> (0 < x * y)%Qc.
Proof. intros. qcnra. Qed.
Lemma Qcdiv_pos (x y : Qc) : (0 < x)%Qc -> (0 < y)%Qc -> (0 < x / y)%Qc.
Proof. intros. unfold Qcdiv. apply Qcmult_pos; auto. apply Qcinv_pos; auto. Qed.
Lemma Qcmult_nonneg (x y : Qc) : (0 <= x)%Qc -> (0 <= y)%Qc -> (0 <= x * y)%Qc.
Proof. intros. qcnra. Qed.
Lemma Qcdiv_nonneg (x y : Qc) : (0 <= x)%Qc -> (0 < y)%Qc -> (0 <= x / y)%Qc.
Proof. intros. unfold Qcdiv. apply Qcmult_nonneg; auto. apply Qclt_le_weak, Qcinv_pos; auto. Qed.
Lemma Qcdiv_mult (x y : Qc) : y <> 0%Qc -> (y * (x / y) = x)%Qc.
Proof. intros. field. auto. Qed.

(** monad *)
Lemma bind_ok {A B} (r : res A) (f : A -> res B) b :
  bind r f = Ok b <-> exists a, r = Ok a /\ f a = Ok b.
Proof. destruct r; simpl; split; [eauto| intros (a' & [= ->] & H); auto | discriminate | intros (? & H & _); discriminate H]. Qed.

Lemma mapM_ok_Forall2 {A B} (f : A -> res B) l bs :
  mapM f l = Ok bs <-> Forall2 (fun a b => f a = Ok b) l bs.
Proof.
  revert bs; induction l as [|a t IH]; intros bs; simpl.
  - split; intro H; [injection H as <-; constructor | inversion H; reflexivity].
  - split; intro H.
    + apply bind_ok in H as (b & Hb & H). apply bind_ok in H as (bs' & Hbs & H).
      injection H as <-. constructor; auto. apply IH; auto.
    + inversion H as [|? b ? bs' Hb Ht]; subst. rewrite Hb; simpl.
      apply IH in Ht. rewrite Ht. reflexivity.
Qed.
Lemma Forall2_len {A B} (R : A -> B -> Prop) l l' : Forall2 R l l' -> length l = length l'.
Proof. induction 1; simpl; auto. Qed.
Lemma mapM_length {A B} (f : A -> res B) l bs : mapM f l = Ok bs -> length bs = length l.
Proof. intro H. apply mapM_ok_Forall2 in H. symmetry. eapply Forall2_len; eauto. Qed.
Lemma mapM_all_ok {A B} (f : A -> res B) (g : A -> B) l :
  (forall a, In a l -> f a = Ok (g a)) -> mapM f l = Ok (map g l).
Proof.
  induction l as [|a t IH]; intros H; simpl; auto.
  rewrite (H a (or_introl eq_refl)); simpl. rewrite IH; auto. intros; apply H; right; auto.
Qed.

(** lists *)
Lemma set_nth_length {A} (l : list A) i a : length (set_nth l i a) = length l.
Proof. revert i; induction l; destruct i; simpl; auto. Qed.
Lemma nth_error_set_nth_eq {A} (l : list A) i a : i < length l -> nth_error (set_nth l i a) i = Some a.
Proof. revert i; induction l; destruct i; simpl; intros; try lia; auto. apply IHl; lia. Qed.
Lemma nth_error_set_nth_ne {A} (l : list A) i j a : i <> j -> nth_error (set_nth l i a) j = nth_error l j.
Proof. revert i j; induction l; destruct i, j; simpl; intros; try congruence; auto. Qed.

Lemma nth_error_ext {A} (l : list A) : forall l', (forall i, nth_error l i = nth_error l' i) -> l = l'.
Proof.
  induction l as [|a t IH]; intros [|b t'] H; auto.
  - specialize (H 0); discriminate.
  - specialize (H 0); discriminate.
  - f_equal. specialize (H 0); simpl in H; congruence. apply IH. intro i. exact (H (S i)).
Qed.
Lemma slice_all {A} (l : list A) : slice l 0 (length l) = l.
Proof. unfold slice. simpl. apply firstn_all. Qed.
Lemma slice_app_skip {A} (p b r : list A) : slice (p ++ b ++ r) (length p) (length b) = b.
Proof.
  unfold slice. rewrite skipn_app, skipn_all, Nat.sub_diag. simpl.
  rewrite firstn_app, firstn_all, Nat.sub_diag. simpl. apply app_nil_r.
Qed.
Lemma slice_length {A} (l : list A) a n : a + n <= length l -> length (slice l a n) = n.
Proof. intro H. unfold slice. rewrite firstn_length, skipn_length. lia. Qed.

(** argbest *)
Section Arg.
  Context {A : Type} (lt : A -> A -> bool).
  Hypothesis lt_irrefl : forall a, lt a a = false.
  Hypothesis lt_trans_neg : forall a b c, lt a b = false -> lt b c = false -> lt a c = false.
  Hypothesis lt_asym : forall a b, lt a b = true -> lt b a = false.

  Lemma argbest_from_spec (l : list A) : forall pre bi b,
    nth_error pre bi = Some b ->
    (forall j a, nth_error pre j = Some a -> lt a b = false) ->
    (forall j a, j < bi -> nth_error pre j = Some a -> lt b a = true) ->
    let k := argbest_from lt l (length pre) bi b in
    exists v, nth_error (pre ++ l) k = Some v /\
      (forall j a, nth_error (pre ++ l) j = Some a -> lt a v = false) /\
      (forall j a, j < k -> nth_error (pre ++ l) j = Some a -> lt v a = true).
  Proof.
    induction l as [|a t IH]; intros pre bi b Hb Hmin Hfirst; simpl.
    - exists b. rewrite app_nil_r. auto.
    - replace (pre ++ a :: t) with ((pre ++ [a]) ++ t) by (rewrite <- app_assoc; reflexivity).
      destruct (lt a b) eqn:E.
      + specialize (IH (pre ++ [a]) (length pre) a). rewrite app_length in IH. simpl in IH.
        rewrite Nat.add_1_r in IH. apply IH.
        * rewrite nth_error_app2, Nat.sub_diag; auto.
        * intros j c Hc. destruct (Nat.lt_ge_cases j (length pre)).
          -- rewrite nth_error_app1 in Hc by lia. apply (lt_trans_neg c b a); eauto.
          -- rewrite nth_error_app2 in Hc by lia. destruct (j - length pre) as [|m]; simpl in Hc.
             ++ injection Hc as <-. apply lt_irrefl.
             ++ destruct m; discriminate.
        * intros j c Hj Hc. rewrite nth_error_app1 in Hc by lia.
          (* lt a b = true and lt c b = false *)
          destruct (lt a c) eqn:F; auto.
          pose proof (lt_trans_neg a c b F (Hmin _ _ Hc)). congruence.
      + specialize (IH (pre ++ [a]) bi b). rewrite app_length in IH. simpl in IH.
        rewrite Nat.add_1_r in IH. apply IH.
        * rewrite nth_error_app1; auto. apply nth_error_Some. congruence.
        * intros j c Hc. destruct (Nat.lt_ge_cases j (length pre)).
          -- rewrite nth_error_app1 in Hc by lia. eauto.
          -- rewrite nth_error_app2 in Hc by lia. destruct (j - length pre) as [|m]; simpl in Hc.
             ++ injection Hc as <-. auto.
             ++ destruct m; discriminate.
        * intros j c Hj Hc. assert (bi < length pre) by (apply nth_error_Some; congruence).
          rewrite nth_error_app1 in Hc by lia. eauto.
  Qed.

  Lemma argbest_spec (l : list A) k : argbest lt l = Some k ->
    exists v, nth_error l k = Some v /\
      (forall j a, nth_error l j = Some a -> lt a v = false) /\
      (forall j a, j < k -> nth_error l j = Some a -> lt v a = true).
  Proof.
    destruct l as [|a t]; simpl; [discriminate|]. intros [= <-].
    apply (argbest_from_spec t [a] 0 a); simpl; auto.
    - intros [|[|j]] c; simpl; intros H; try discriminate. injection H as <-. apply lt_irrefl.
    - intros; lia.
  Qed.
  Lemma argbest_some (l : list A) : l <> [] -> exists k, argbest lt l = Some k.
  Proof. destruct l; [congruence|]. simpl; eauto. Qed.
End Arg.

Lemma qclt_neg_trans a b c : qclt a b = false -> qclt b c = false -> qclt a c = false.
Proof. intros; qcases. apply qclt_false. eapply Qcle_trans; eauto. Qed.
Lemma qclt_asym a b : qclt a b = true -> qclt b a = false.
Proof. intros; qcases. apply qclt_false. apply Qclt_le_weak; auto. Qed.

Lemma argmin_spec l k : argmin l = Some k ->
  exists v, nth_error l k = Some v /\ (forall j a, nth_error l j = Some a -> (v <= a)%Qc) /\
    (forall j a, j < k -> nth_error l j = Some a -> (v < a)%Qc).
Proof.
  intro H. apply (argbest_spec qclt qclt_irrefl qclt_neg_trans qclt_asym) in H.
  destruct H as (v & H1 & H2 & H3). exists v. split; auto. split.
  - intros j a Ha. apply qclt_false. eauto.
  - intros j a Hj Ha. apply qclt_spec. eauto.
Qed.
Lemma argmax_spec l k : argmax l = Some k ->
  exists v, nth_error l k = Some v /\ (forall j a, nth_error l j = Some a -> (a <= v)%Qc) /\
    (forall j a, j < k -> nth_error l j = Some a -> (a < v)%Qc).
Proof.
  intro H. apply argbest_spec in H.
  - destruct H as (v & H1 & H2 & H3). exists v. split; auto. split.
    + intros j a Ha. apply qclt_false. exact (H2 _ _ Ha).
    + intros j a Hj Ha. apply qclt_spec. exact (H3 _ _ Hj Ha).
  - apply qclt_irrefl.
  - intros a b c H1 H2. eapply qclt_neg_trans; eauto.
  - intros a b. apply qclt_asym.
Qed.

Lemma lmin_le a l : (lmin a l <= a)%Qc /\ (forall x, In x l -> (lmin a l <= x)%Qc) /\ (lmin a l = a \/ In (lmin a l) l).
Proof.
  unfold lmin. revert a; induction l as [|x t IH]; intros a; simpl.
  - split; [apply Qcle_refl|]. split; [tauto|auto].
  - destruct (qclt x a) eqn:E; qcases.
    + destruct (IH x) as (H1 & H2 & H3). split; [qclra|]. split.
      * intros y [<-|Hy]; auto.
      * destruct H3 as [->|]; auto.
    + destruct (IH a) as (H1 & H2 & H3). split; auto. split.
      * intros y [<-|Hy]; [qclra | auto].
      * destruct H3 as [|]; auto.
Qed.
Lemma lmax_ge a l : (a <= lmax a l)%Qc /\ (forall x, In x l -> (x <= lmax a l)%Qc) /\ (lmax a l = a \/ In (lmax a l) l).
Proof.
  unfold lmax. revert a; induction l as [|x t IH]; intros a; simpl.
  - split; [apply Qcle_refl|]. split; [tauto|auto].
  - destruct (qclt a x) eqn:E; qcases.
    + destruct (IH x) as (H1 & H2 & H3). split; [qclra|]. split.
      * intros y [<-|Hy]; auto.
      * destruct H3 as [->|]; auto.
    + destruct (IH a) as (H1 & H2 & H3). split; auto. split.
      * intros y [<-|Hy]; [qclra | auto].
      * destruct H3 as [|]; auto.
Qed.
