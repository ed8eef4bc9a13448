(** Lemmas about rounding rows of doubles. *)
From Coq Require Import Reals List QArith Qcanon Qreals Bool Lra Lia.
From Flocq Require Import Core IEEE754.BinarySingleNaN.
From Verif.Model Require Import Py Space Optim Float FloatDup FloatRow.
From Verif.Spec Require Import SpaceSpec FloatSpec FloatDupSpec FloatRowSpec.
From Verif.Proof Require Import Num SpaceP PlotP FloatP FloatDupP.
Import ListNotations.
Local Open Scope R_scope.

(** ** continuous *)
Lemma round_cont_valid lo hi x : interval (lo, hi) -> nan_p x = false -> inside (lo, hi) (round_continuous lo hi x).
Proof.
  intros I N. destruct (is_finite x) eqn:F; [exact (proj1 (round_continuous_ok lo hi x I F))|].
  destruct I as (A & B & C). cbn [fst snd] in *. unfold round_continuous, inside. cbn [fst snd].
  destruct x as [s|s| |s m e He]; try discriminate F; try discriminate N.
  assert (E1 : forall y, number y -> flt (B754_infinity true) y = true) by (intros y Y; destruct y; try discriminate Y; reflexivity).
  assert (E2 : forall y, number y -> flt (B754_infinity false) y = false) by (intros y Y; destruct y; try discriminate Y; reflexivity).
  assert (E3 : forall y, number y -> flt y (B754_infinity false) = true) by (intros y Y; destruct y; try discriminate Y; reflexivity).
  destruct s; [rewrite E1 by exact A|rewrite E2, E3 by assumption]; split; auto; lra.
Qed.
(** ** discrete *)
Notation gap v x := (ext (fabs (fsub v x))).
Lemma gap_val v w x : number v -> number w -> number x -> val v = val w -> gap v x = gap w x.
Proof.
  intros A B C E.
  assert (G : forall v w, number v -> number w -> val v = val w -> number (fsub v x) -> number (fsub w x) /\ val (fsub w x) = val (fsub v x)).
  { intros a b Ha Hb Eab N. pose proof (fsub_finite a x Ha C N) as V. destruct (fsub_ok b x Hb C) as (N' & V').
    - rewrite <- Eab, <- V. apply val_lt.
    - split; [exact N'|]. rewrite V'. rewrite V, Eab. reflexivity. }
  unfold ext, fabs. rewrite !is_finite_Babs. unfold number in *. destruct (is_finite (fsub v x)) eqn:F.
  - destruct (G v w A B E F) as [N V]. rewrite N. unfold val in *. rewrite !B2R_Babs. now rewrite V.
  - destruct (is_finite (fsub w x)) eqn:F'; [|reflexivity]. destruct (G w v B A (eq_sym E) F') as [N _]. congruence.
Qed.
Lemma fold_first x l : forall pre r, number x -> (forall v, In v (pre ++ l) -> number v) ->
  (exists i, nth_error pre i = Some r /\ forall j v, nth_error pre j = Some v -> gap r x <= gap v x /\ ((j < i)%nat -> gap r x < gap v x)) ->
  let r' := fold_left (fun r v => if flt (fabs (fsub v x)) (fabs (fsub r x)) then v else r) l r in
  exists i, nth_error (pre ++ l) i = Some r' /\ forall j v, nth_error (pre ++ l) j = Some v -> gap r' x <= gap v x /\ ((j < i)%nat -> gap r' x < gap v x).
Proof.
  induction l as [|v l IH]; intros pre r Hx Hn (i & Hi & H); cbn [fold_left]; cbv zeta.
  - rewrite app_nil_r in *. exists i. auto.
  - replace (pre ++ v :: l) with ((pre ++ [v]) ++ l) in * by (rewrite <- app_assoc; reflexivity).
    assert (Hr : number r) by (apply Hn; apply nth_error_In in Hi; rewrite !in_app_iff; auto).
    assert (Hv : number v) by (apply Hn; rewrite !in_app_iff; left; right; left; reflexivity).
    rewrite (nn_lt _ _ (nn_abs_sub v x Hv Hx) (nn_abs_sub r x Hr Hx)).
    assert (Li : (i < length pre)%nat) by (apply nth_error_Some; congruence).
    destruct (Rlt_bool_spec (gap v x) (gap r x)) as [L|L]; apply IH; auto.
    + exists (length pre). split; [rewrite nth_error_app2, Nat.sub_diag by lia; reflexivity|]. intros j w N.
      destruct (Nat.lt_ge_cases j (length pre)) as [C|C].
      * rewrite nth_error_app1 in N by exact C. destruct (H j w N) as [Q _]. split; [lra|intros; lra].
      * rewrite nth_error_app2 in N by exact C. destruct (j - length pre)%nat as [|[|m]] eqn:M; cbn in N; try discriminate. injection N as <-. split; [lra|intros; lia].
    + exists i. split; [rewrite nth_error_app1 by exact Li; exact Hi|]. intros j w N.
      destruct (Nat.lt_ge_cases j (length pre)) as [C|C].
      * rewrite nth_error_app1 in N by exact C. now apply H.
      * rewrite nth_error_app2 in N by exact C. destruct (j - length pre)%nat as [|[|m]] eqn:M; cbn in N; try discriminate. injection N as <-. split; [lra|intros; lia].
Qed.
Lemma round_discrete_first dom x : dom <> [] -> number x -> (forall v, In v dom -> number v) -> exists r i, round_discrete dom x = Ok r /\
  nth_error dom i = Some r /\ forall j v, nth_error dom j = Some v -> gap r x <= gap v x /\ ((j < i)%nat -> gap r x < gap v x).
Proof.
  intros Hd Hx Hn. destruct dom as [|r0 l]; [congruence|]. unfold round_discrete.
  assert (H0 : number r0) by (apply Hn; left; reflexivity). cbn [fold_left].
  rewrite (nn_lt _ _ (nn_abs_sub r0 x H0 Hx) (nn_abs_sub r0 x H0 Hx)), Rlt_bool_false by lra.
  destruct (fold_first x l [r0] r0 Hx Hn) as (i & A & B).
  { exists 0%nat. split; [reflexivity|]. intros [|[|j]] v N; cbn in N; try discriminate. injection N as <-. split; [lra|intros; lia]. }
  eexists. exists i. split; [reflexivity|]. split; [exact A|exact B].
Qed.
Lemma round_discrete_self dom i r : (forall v, In v dom -> number v) -> nth_error dom i = Some r ->
  (forall j v, nth_error dom j = Some v -> (j < i)%nat -> val v <> val r) -> round_discrete dom r = Ok r.
Proof.
  intros Hn Hi H. assert (Hr : number r) by (apply Hn; eapply nth_error_In; eauto).
  assert (ND : dom <> []) by (destruct dom; [destruct i; discriminate|congruence]).
  destruct (round_discrete_first dom r ND Hr Hn) as (r' & i' & E & N' & M). rewrite E. f_equal.
  assert (Hr' : number r') by (apply Hn; eapply nth_error_In; eauto).
  assert (Z : gap r r = 0). { destruct (abs_sub_self r r Hr Hr eq_refl) as [F V]. unfold ext. rewrite F. exact V. }
  assert (P : forall v, In v dom -> 0 <= gap v r) by (intros v I; apply nn_ext_pos, nn_abs_sub; auto).
  destruct (Nat.lt_trichotomy i' i) as [L|[L|L]].
  - exfalso. apply (H i' r' N' L). apply abs_sub_zero; auto. destruct (M i r Hi) as [Q _]. rewrite Z in Q. specialize (P r' (nth_error_In _ _ N')). lra.
  - subst i'. congruence.
  - exfalso. destruct (M i r Hi) as [_ Q]. specialize (Q L). rewrite Z in Q. specialize (P r' (nth_error_In _ _ N')). lra.
Qed.
Lemma round_discrete_idem dom x r : dom <> [] -> (forall v, In v dom -> number v) -> round_discrete dom x = Ok r -> round_discrete dom r = Ok r.
Proof.
  intros Hd Hn E. destruct (is_finite x) eqn:F.
  - destruct (round_discrete_first dom x Hd F Hn) as (r' & i & E' & Hi & M). rewrite E' in E. injection E as <-.
    apply (round_discrete_self dom i r' Hn Hi). intros j v Nj L V. destruct (M j v Nj) as [_ Q]. specialize (Q L).
    rewrite (gap_val v r' x) in Q; [lra|apply Hn; eapply nth_error_In; eauto|apply Hn; eapply nth_error_In; eauto|exact F|exact V].
  - destruct dom as [|r0 l]; [congruence|].
    assert (G : forall l r, number r -> (forall v, In v l -> number v) -> fold_left (fun r v => if flt (fabs (fsub v x)) (fabs (fsub r x)) then v else r) l r = r).
    { induction l0 as [|v l0 IH]; intros a Ha Hl; [reflexivity|]. cbn [fold_left].
      replace (flt (fabs (fsub v x)) (fabs (fsub a x))) with false; [apply IH; auto; intros w I; apply Hl; now right|].
      specialize (Hl v (or_introl eq_refl)). unfold number in Ha, Hl. destruct x as [s|s| |s m e He]; try discriminate F; destruct v, a; try discriminate Hl; try discriminate Ha; reflexivity. }
    unfold round_discrete in E. rewrite G in E; [|apply Hn; left; reflexivity|exact Hn]. injection E as <-.
    apply (round_discrete_self (r0 :: l) 0 r0 Hn eq_refl). intros j v _ L. lia.
Qed.
(** ** categorical *)
Lemma Some_eq {A} (a b : A) : Some a = Some b -> a = b.
Proof. intros H. injection H as H. exact H. Qed.
Lemma hot_nth n i j : (j < n)%nat -> nth_error (hot n i) j = Some (of_Z (if Nat.eqb j i then 1 else 0)).
Proof. intros L. unfold hot. rewrite nth_error_map, nth_error_seq by exact L. reflexivity. Qed.
Lemma hot_length n i : length (hot n i) = n.
Proof. unfold hot. now rewrite map_length, seq_length. Qed.
Lemma one_val : number (of_Z 1) /\ val (of_Z 1) = 1.
Proof. destruct (of_Z_ok 1) as [A B]; [lia|]. auto. Qed.
Lemma zero_val : number (of_Z 0) /\ val (of_Z 0) = 0.
Proof. destruct (of_Z_ok 0) as [A B]; [lia|]. auto. Qed.
Lemma hot_number n i x : In x (hot n i) -> number x.
Proof. unfold hot. intros H. apply in_map_iff in H as (j & <- & _). destruct (Nat.eqb j i); [apply one_val|apply zero_val]. Qed.
Lemma cat_self n i : (i < n)%nat -> round_categorical (hot n i) = Ok (hot n i).
Proof.
  intros L. destruct (round_categorical_ok (hot n i)) as (k & Lk & E & M). { intros H. pose proof (hot_length n i) as K. rewrite H in K. cbn in K. lia. }
  rewrite hot_length in *. rewrite E. fold (hot n k). f_equal. destruct (M (hot_number n i)) as (w & Nw & G). rewrite hot_nth in Nw by exact Lk.
  destruct (G i (of_Z 1)) as [Q _]. { rewrite hot_nth, Nat.eqb_refl by exact L. reflexivity. }
  destruct (Nat.eqb k i) eqn:C; [apply Nat.eqb_eq in C; now subst k|]. apply Some_eq in Nw. rewrite <- Nw, (proj2 one_val), (proj2 zero_val) in Q. lra.
Qed.
(** ** one variable *)
Lemma get0 {A} (a : A) : get [a] 0 = Ok a. Proof. reflexivity. Qed.
Lemma fround_valid k b : fwell k -> freadable k b -> exists r, fround k b = Ok r /\ fvalid k r.
Proof.
  intros W [L N]. destruct k as [lo hi|dom|n]; cbn [fwell fwidth fround fvalid] in *.
  - destruct b as [|x [|]]; try discriminate. rewrite get0. cbn [bind]. eexists. split; [reflexivity|]. eexists. split; [reflexivity|]. apply round_cont_valid; [exact W|]. apply N. now left.
  - destruct b as [|x [|]]; try discriminate. rewrite get0. cbn [bind]. destruct W as [W1 W2]. destruct (round_discrete_ok dom x W1) as (r & E & I & _). rewrite E. cbn [bind]. eauto.
  - destruct (round_categorical_ok b) as (i & Li & E & _). { intros ->. cbn in L. lia. } rewrite E, L. rewrite L in Li. eexists. split; [reflexivity|]. exists i. auto.
Qed.
Lemma fvalid_width k b : fvalid k b -> length b = fwidth k.
Proof. destruct k; cbn; [intros (x & -> & _)|intros (x & -> & _)|intros (i & _ & ->)]; try reflexivity. apply hot_length. Qed.
Lemma fround_idem k b r : fwell k -> freadable k b -> fround k b = Ok r -> fround k r = Ok r.
Proof.
  intros W R E. destruct (fround_valid k b W R) as (r' & E' & V). rewrite E in E'. injection E' as <-. destruct R as [L N].
  destruct k as [lo hi|dom|n]; cbn [fwell fwidth fround fvalid] in *.
  - destruct V as (x & -> & Hx & B). rewrite get0. cbn [bind]. destruct (round_continuous_ok lo hi x W Hx) as (_ & K & _). rewrite K by exact B. reflexivity.
  - destruct b as [|x [|]]; try discriminate. rewrite get0 in E. cbn [bind] in E. destruct (round_discrete dom x) as [y|] eqn:D; [|discriminate]. cbn [bind] in E. injection E as <-.
    rewrite get0. cbn [bind]. destruct W as [W1 W2]. now rewrite (round_discrete_idem dom x y W1 W2 D).
  - destruct V as (i & Li & ->). now apply cat_self.
Qed.
Lemma fround_val k b : fwell k -> fvalid k b -> exists r, fround k b = Ok r /\ fvalid k r /\ map val r = map val b /\ match k with FDisc _ => True | _ => r = b end.
Proof.
  intros W V. destruct k as [lo hi|dom|n]; cbn [fwell fwidth fround fvalid] in *.
  - destruct V as (x & -> & Hx & B). rewrite get0. cbn [bind]. destruct (round_continuous_ok lo hi x W Hx) as (_ & K & _). rewrite K by exact B. eexists. split; [reflexivity|]. split; [|auto]. exists x. split; [reflexivity|]. split; auto.
  - destruct V as (x & -> & I). rewrite get0. cbn [bind]. destruct W as [W1 W2]. destruct (discrete_fixes dom x x (W2 x I) W2 I eq_refl) as (r & E & J & V). rewrite E. cbn [bind].
    eexists. split; [reflexivity|]. split; [eauto|]. cbn [map]. rewrite V. auto.
  - destruct V as (i & Li & ->). rewrite (cat_self n i Li). eexists. split; [reflexivity|]. split; [eauto|auto].
Qed.
(** ** rows *)
Lemma fround_from_app ks : forall pre x i, length pre = i -> fround_from ks i (pre ++ x) = fround_from ks 0 x.
Proof.
  assert (G : forall ks pre x i j, length pre = i -> fround_from ks (i + j) (pre ++ x) = fround_from ks j x).
  { induction ks0 as [|k ks0 IH]; intros pre x i j L; [reflexivity|]. cbn [fround_from]. unfold slice.
    replace (skipn (i + j) (pre ++ x)) with (skipn j x). 2:{ rewrite skipn_app. rewrite (skipn_all2 pre) by lia. cbn. f_equal. lia. }
    destruct (fround k (firstn (fwidth k) (skipn j x))); [|reflexivity]. cbn [bind]. rewrite <- Nat.add_assoc. now rewrite IH. }
  intros pre x i L. rewrite <- (Nat.add_0_r i). now apply G.
Qed.
Lemma fround_from_cons k ks b x : length b = fwidth k ->
  fround_from (k :: ks) 0 (b ++ x) = (r <- fround k b ;; rs <- fround_from ks 0 x ;; Ok (r :: rs)).
Proof.
  intros L. cbn [fround_from]. unfold slice. cbn [skipn]. rewrite <- L, firstn_app, Nat.sub_diag, firstn_O, app_nil_r, firstn_all.
  cbn [plus]. now rewrite (fround_from_app ks b x (length b) eq_refl).
Qed.
Lemma rows_by (P : fkind -> list float -> Prop) (Q : fkind -> list float -> list float -> Prop) : (forall k b, P k b -> length b = fwidth k) ->
  forall ks x, (forall k b, In k ks -> P k b -> exists r, fround k b = Ok r /\ Q k b r) -> fblocks P ks x ->
  exists bs rs, x = concat bs /\ Forall2 (fun k b => P k b) ks bs /\ fround_from ks 0 x = Ok rs /\ Forall2 (fun kb r => Q (fst kb) (snd kb) r) (combine ks bs) rs.
Proof.
  intros W ks x H B. induction B as [|k ks b x Pb B IH]; [exists [], []; repeat split; constructor|].
  destruct IH as (bs & rs & E & F & R & G); [intros k' b' I; apply H; now right|]. destruct (H k b (or_introl eq_refl) Pb) as (r & Er & Qr).
  exists (b :: bs), (r :: rs). split; [cbn; now rewrite E|]. split; [now constructor|]. split; [|cbn [combine]; now constructor].
  rewrite fround_from_cons by (now apply W). rewrite Er. cbn [bind]. rewrite R. reflexivity.
Qed.

(** ** the same as in rational numbers *)
Lemma stands_lt x y p q : stands_for x p -> stands_for y q -> flt x y = qclt p q.
Proof.
  intros [A1 A2] [B1 B2]. rewrite flt_ok by assumption. rewrite A2, B2. destruct (qclt p q) eqn:E.
  - apply qclt_spec in E. apply Rlt_bool_true. apply Qlt_Rlt. exact E.
  - apply Rlt_bool_false. apply Qle_Rle. unfold qclt in E. apply negb_false_iff in E. now apply Qle_bool_iff.
Qed.
Lemma stands_gap v x p q : stands_for v p -> stands_for x q -> number (fsub v x) -> val (fsub v x) = val v - val x ->
  stands_for (fabs (fsub v x)) (qabs (p - q)%Qc).
Proof.
  intros [A1 A2] [B1 B2] N V. split; [unfold fabs, number; rewrite is_finite_Babs; exact N|].
  unfold fabs. unfold val at 1. rewrite B2R_Babs. change (B2R (fsub v x)) with (val (fsub v x)). rewrite V, A2, B2.
  assert (E : Q2R (this p) - Q2R (this q) = Q2R (this (p - q)%Qc)).
  { rewrite <- Q2R_minus. apply Qeq_eqR. unfold Qcminus, Qcplus, Qcopp, Q2Qc. cbn [this]. rewrite !Qred_correct. reflexivity. }
  rewrite E. unfold qabs. destruct (qclt (p - q)%Qc q0) eqn:L.
  - apply qclt_spec in L. rewrite Rabs_left.
    + rewrite <- Q2R_opp. apply Qeq_eqR. unfold Qcopp, Q2Qc. cbn [this]. now rewrite Qred_correct.
    + replace 0 with (Q2R (this q0)); [apply Qlt_Rlt; exact L|]. unfold q0. change (Q2R (0 # 1) = 0). unfold Q2R. cbn. lra.
  - rewrite Rabs_right; [reflexivity|]. apply Rle_ge. replace 0 with (Q2R (this q0)).
    + apply Qle_Rle. unfold qclt in L. apply negb_false_iff in L. now apply Qle_bool_iff.
    + unfold q0. change (Q2R (0 # 1) = 0). unfold Q2R. cbn. lra.
Qed.
Lemma cont_for lo hi x l h q : stands_for lo l -> stands_for hi h -> stands_for x q -> stands_for (round_continuous lo hi x) (round_cont l h q).
Proof.
  intros A B C. unfold round_continuous, round_cont. rewrite (stands_lt x lo q l C A), (stands_lt hi x h q B C). destruct (qclt q l); [exact A|]. destruct (qclt h q); assumption.
Qed.
Lemma disc_for dom vals x q : row_for dom vals -> dom <> [] -> stands_for x q ->
  (forall v, In v dom -> number (fsub v x) /\ val (fsub v x) = val v - val x) ->
  exists r d, get vals 0 = Ok d /\ round_discrete dom x = Ok r /\ stands_for r (round_disc vals q d).
Proof.
  intros R ND S H. destruct R as [|v0 p0 dom vals S0 R]; [congruence|]. eexists. exists p0. split; [reflexivity|]. split; [reflexivity|].
  assert (G : forall dom vals, row_for dom vals -> (forall v, In v dom -> number (fsub v x) /\ val (fsub v x) = val v - val x) -> forall r p,
    stands_for r p -> number (fsub r x) -> val (fsub r x) = val r - val x ->
    stands_for (fold_left (fun r v => if flt (fabs (fsub v x)) (fabs (fsub r x)) then v else r) dom r)
               (fold_left (fun r d => if qclt (qabs (d - q)%Qc) (qabs (r - q)%Qc) then d else r) vals p)).
  { clear - S. intros dom vals R. induction R as [|v w dom vals Sv R IH]; intros H r p Sr N V; [exact Sr|]. cbn [fold_left].
    destruct (H v (or_introl eq_refl)) as [Nv Vv].
    rewrite (stands_lt _ _ _ _ (stands_gap v x w q Sv S Nv Vv) (stands_gap r x p q Sr S N V)).
    destruct (qclt (qabs (w - q)) (qabs (p - q))); (apply IH; [intros u I; apply H; now right|assumption..]). }
  destruct (H v0 (or_introl eq_refl)) as [N0 V0]. unfold round_disc. apply (G (v0 :: dom) (p0 :: vals)); auto. now constructor.
Qed.
Lemma argmax_for a q : row_for a q -> a <> [] -> exists i, argmax_f a = Ok i /\ argmax q = Some i.
Proof.
  intros R ND. destruct R as [|x p a q S R]; [congruence|]. eexists. split; [reflexivity|]. unfold argmax, argbest. f_equal. symmetry.
  assert (G : forall a q, row_for a q -> forall i bi b bq, stands_for b bq ->
    arg_from (fun x y => flt y x) bi b i a = argbest_from (fun a b => qclt b a) q i bi bq).
  { clear. intros a q R. induction R as [|x p a q S R IH]; intros i bi b bq Sb; [reflexivity|]. cbn [arg_from argbest_from].
    assert (NN : forall z w, stands_for z w -> nan_p z = false) by (intros z w [F _]; unfold number in F; destruct z; try reflexivity; discriminate).
    rewrite (NN b bq Sb), (NN x p S), orb_false_r, (stands_lt b x bq p Sb S). cbn [negb andb]. destruct (qclt bq p); now apply IH. }
  now apply G.
Qed.
Lemma hot_for n i : (i < n)%nat -> row_for (hot n i) (set_nth (repeat q0 n) i q1).
Proof.
  intros L. assert (O : stands_for (of_Z 1) q1). { destruct one_val as [A B]. split; [exact A|]. rewrite B. unfold q1. change (1 = Q2R (1 # 1)). unfold Q2R. cbn. lra. }
  assert (Z : stands_for (of_Z 0) q0) by exact zero_for.
  assert (G : forall n s i, row_for (map (fun j => of_Z (if Nat.eqb j (s + i) then 1 else 0)) (seq s n)) (set_nth (repeat q0 n) i q1)).
  { clear - O Z. induction n as [|n IH]; intros s i; [constructor|]. cbn [seq map repeat set_nth]. destruct i as [|i].
    - constructor; [rewrite Nat.add_0_r, Nat.eqb_refl; exact O|]. clear - Z. rewrite Nat.add_0_r.
      assert (K : forall n t, (s < t)%nat -> row_for (map (fun j => of_Z (if Nat.eqb j s then 1 else 0)) (seq t n)) (repeat q0 n)).
      { induction n0 as [|n0 IH]; intros t T; [constructor|]. cbn [seq map repeat]. constructor; [|apply IH; lia].
        replace (Nat.eqb t s) with false by (symmetry; apply Nat.eqb_neq; lia). exact Z. }
      apply K. lia.
    - constructor; [replace (Nat.eqb s (s + S i)) with false by (symmetry; apply Nat.eqb_neq; lia); exact Z|].
      specialize (IH (S s) i). replace (s + S i)%nat with (S s + i)%nat by lia. exact IH. }
  exact (G n 0%nat i).
Qed.
Lemma row_length a v : row_for a v -> length a = length v.
Proof. intros H. induction H; cbn; auto. Qed.
Lemma var_for k v b q : kind_for k (x_kind v) -> fwell k -> exact_block k b -> row_for b q ->
  exists r rq, fround k b = Ok r /\ var_round v q = Ok (R1 rq) /\ row_for r rq.
Proof.
  intros K W (L & N & X) R. unfold var_round. destruct k as [lo hi|dom|n], (x_kind v) as [l h|vals|? ?|cats]; cbn [kind_for] in K; try contradiction; cbn [fround fwidth fwell] in *.
  - destruct R as [|x p b q S R]; try discriminate. destruct R; try discriminate. rewrite get0. cbn [bind]. rewrite get0. cbn [bind]. eexists. eexists. split; [reflexivity|]. split; [reflexivity|].
    constructor; [apply cont_for; tauto|constructor].
  - destruct R as [|x p b q S R]; try discriminate. destruct R; try discriminate. rewrite get0. cbn [bind]. rewrite get0. cbn [bind].
    destruct (disc_for dom vals x p K (proj1 W) S) as (r & d & E1 & E2 & E3). { intros u I. apply X; [exact I|now left]. }
    unfold vec in *. rewrite E1, E2. cbn [bind]. eexists. eexists. split; [reflexivity|]. split; [reflexivity|]. constructor; [exact E3|constructor].
  - destruct (argmax_for b q R) as (i & E1 & E2). { intros ->. cbn in L. lia. } unfold round_categorical. rewrite E1. cbn [bind]. unfold vec in *. rewrite E2.
    eexists. eexists. split; [reflexivity|]. split; [reflexivity|]. rewrite <- (row_length b q R). fold (hot (length b) i). apply hot_for.
    unfold argmax_f in E1. destruct b as [|a b]; [discriminate|]. injection E1 as <-. apply arg_bound.
Qed.
Lemma row_app_inv a b q : row_for (a ++ b) q -> exists q1 q2, q = q1 ++ q2 /\ row_for a q1 /\ row_for b q2.
Proof. intros H. apply Forall2_app_inv_l in H as (q1 & q2 & A & B & ->). eauto. Qed.
Lemma from_for ks : forall vs, Forall2 (fun k v => kind_for k (x_kind v) /\ x_mdim v = fwidth k) ks vs -> Forall fwell ks ->
  forall x, fblocks exact_block ks x -> forall i pre q, length pre = i -> row_for x q ->
  exists rs rq, fround_from ks 0 x = Ok rs /\ round_from vs i (pre ++ q) = Ok (map R1 rq) /\ Forall2 row_for rs rq.
Proof.
  intros vs F. induction F as [|k v ks vs [K M] F IH]; intros W x B i pre q L R.
  - exists [], []. split; [reflexivity|]. split; [reflexivity|constructor].
  - inversion B as [|k' ks' b x' E B' Ek Ex]. subst k' ks' x. inversion W; subst.
    apply row_app_inv in R as (qb & qx & -> & R1' & R2').
    destruct (var_for k v b qb K) as (r & rq & A1 & A2 & A3); [assumption..|].
    destruct (IH ltac:(assumption) x' B' (length pre + x_mdim v)%nat (pre ++ qb) qx) as (rs & rqs & C1 & C2 & C3); [|exact R2'|].
    { rewrite app_length, <- (row_length b qb R1'), (proj1 E), M. reflexivity. }
    exists (r :: rs), (rq :: rqs). split; [|split; [|now constructor]].
    + rewrite fround_from_cons by (exact (proj1 E)). rewrite A1. cbn [bind]. rewrite C1. reflexivity.
    + cbn [round_from map]. unfold slice. rewrite skipn_app, skipn_all, Nat.sub_diag. cbn [app skipn].
      replace (x_mdim v) with (length qb) by (rewrite <- (row_length b qb R1'), (proj1 E); now symmetry).
      rewrite firstn_app, Nat.sub_diag, firstn_O, app_nil_r, firstn_all. rewrite A2. cbn [bind]. rewrite app_assoc.
      replace (length qb) with (x_mdim v) by (rewrite <- (row_length b qb R1'), (proj1 E); exact M). rewrite C2. reflexivity.
Qed.
Lemma all_R1_map vs : all_R1 (map R1 vs) = Some vs.
Proof. induction vs as [|v vs IH]; [reflexivity|]. cbn. now rewrite IH. Qed.
Lemma row_concat rs rq : Forall2 row_for rs rq -> row_for (concat rs) (concat rq).
Proof. intros H. induction H as [|a b rs rq A H IH]; [constructor|]. cbn. now apply Forall2_app. Qed.
Lemma fround_from_length ks : forall i x rs, fround_from ks i x = Ok rs -> length rs = length ks.
Proof.
  induction ks as [|k ks IH]; intros i x rs E; cbn [fround_from] in E; [injection E as <-; reflexivity|].
  destruct (fround k (slice x i (fwidth k))); [|discriminate]. cbn [bind] in E. destruct (fround_from ks (i + fwidth k) x) eqn:E'; [|discriminate]. cbn [bind] in E.
  injection E as <-. cbn. f_equal. eapply IH. exact E'.
Qed.
