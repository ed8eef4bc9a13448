(** Lemmas about the report on doubles. *)
From Coq Require Import Reals List Arith Lia Lra QArith Qcanon Qreals Qpower Bool.
From Flocq Require Import Core IEEE754.BinarySingleNaN.
From Verif.Model Require Import Py Ieee Float FloatReport.
From Verif.Spec Require Import IeeeSpec FloatSpec FloatDupSpec FloatReportSpec.
From Verif.Proof Require Import Num IeeeP FloatP FloatDupP.
Import ListNotations.
Local Open Scope nat_scope.

Lemma exact_number (x : float) : FloatSpec.number x -> exists q, stands_for x q.
Proof.
  intros N. destruct x as [s|s| |s m e B]; try discriminate N.
  - exists (Q2Qc 0). split; [exact N|]. unfold val, B2R. symmetry. rewrite (Qeq_eqR (Q2Qc 0) 0) by apply Qred_correct. unfold Q2R. cbn. lra.
  - exists (Q2Qc (inject_Z (cond_Zopp s (Zpos m)) * Qpower 2 e)). split; [exact N|]. unfold val, B2R.
    rewrite (Qeq_eqR _ (inject_Z (cond_Zopp s (Zpos m)) * Qpower 2 e)) by apply Qred_correct. rewrite Q2R_mult.
    assert (I : forall z, Q2R (inject_Z z) = IZR z) by (intros z; unfold Q2R, inject_Z; cbn; field). rewrite I. unfold F2R. cbn [Fnum Fexp]. f_equal.
    assert (P : forall p, Q2R (Qpower_positive 2 p) = IZR (Z.pow_pos 2 p)).
    { intros p. rewrite <- I. apply Qeq_eqR. change (inject_Z 2 ^ Zpos p == inject_Z (2 ^ Zpos p))%Q. symmetry. apply Zpower_Qpower. discriminate. }
    destruct e as [|p|p]; cbn [bpow Qpower]; [unfold Q2R; cbn; field|symmetry; apply P|]. rewrite Q2R_inv.
    + rewrite P. reflexivity.
    + intros H. apply (Qpower_not_0_positive 2 p) in H; [exact H|discriminate].
Qed.
Lemma every_double (x : float) : exists v, is_value x v.
Proof.
  destruct x as [s|s| |s m e B].
  - destruct (exact_number (B754_zero s)) as (q & H); [reflexivity|]. now exists (Fin q).
  - destruct s; [now exists NInf|now exists PInf].
  - now exists NaN.
  - destruct (exact_number (B754_finite s m e B)) as (q & H); [reflexivity|]. now exists (Fin q).
Qed.
Lemma value_nan x a : is_value x a -> nan_p x = Ieee.is_nan a.
Proof. destruct a as [| | |q]; cbn; try (intros ->; reflexivity). intros [N _]. unfold FloatSpec.number in N. destruct x; try discriminate N; reflexivity. Qed.
Lemma stands_lt x y p q : stands_for x p -> stands_for y q -> Float.flt x y = qclt p q.
Proof.
  intros [A1 A2] [B1 B2]. rewrite flt_ok by assumption. rewrite A2, B2. destruct (qclt p q) eqn:E.
  - apply Rlt_bool_true. apply Qlt_Rlt. apply qclt_spec in E. exact E.
  - apply Rlt_bool_false. apply qclt_false in E. apply Qle_Rle. exact E.
Qed.
Lemma value_lt x y a b : is_value x a -> is_value y b -> Float.flt x y = Ieee.flt qclt a b.
Proof.
  intros A B. destruct a as [| | |p], b as [| | |q]; cbn in A, B; subst; try reflexivity; try (now apply stands_lt);
    (destruct A as [N _] || destruct B as [N _]); unfold FloatSpec.number in N;
    match type of N with is_finite ?w = true => destruct w as [[]|[]| |[] ? ? ?]; try discriminate N; reflexivity end.
Qed.
Lemma value_inj x a b : is_value x a -> is_value x b -> a = b.
Proof.
  destruct a as [| | |p], b as [| | |q]; cbn; intros A B; subst; try reflexivity; try discriminate; try (destruct A as [N _]; discriminate N); try (destruct B as [N _]; discriminate N).
  destruct A as [_ A], B as [_ B]. f_equal. rewrite A in B. apply eqR_Qeq in B. now apply Qc_is_canon.
Qed.
Lemma value_same x y a : is_value x a -> is_value y a -> a <> NaN -> same_number x y.
Proof.
  destruct a as [| | |q]; cbn; intros A B N; [congruence|right; eauto|right; eauto|]. left. destruct A as [A1 A2], B as [B1 B2]. split; [exact A1|]. split; [exact B1|]. now rewrite A2.
Qed.
Lemma same_value x y a : same_number x y -> is_value y a -> is_value x a.
Proof.
  intros [(N & M & E)|(s & -> & ->)] A; [|exact A]. destruct a as [| | |q]; cbn in *; subst; try discriminate M. destruct A as [_ A]. split; [exact N|]. now rewrite E.
Qed.
Lemma value_opp x a : is_value x a -> is_value (Bopp x) (match a with NaN => NaN | PInf => NInf | NInf => PInf | Fin q => Fin (- q)%Qc end).
Proof.
  destruct a as [| | |q]; cbn; try (intros ->; reflexivity). intros [N E]. split; [unfold FloatSpec.number in *; now rewrite is_finite_Bopp|]. unfold val. rewrite B2R_Bopp. fold (val x). rewrite E.
  rewrite <- Q2R_opp. apply Qeq_eqR. symmetry. apply Qred_correct.
Qed.

Lemma minimum_value x y a b : is_value x a -> is_value y b -> is_value (minimum_f x y) (np_minimum qclt a b).
Proof. intros A B. unfold minimum_f, np_minimum. rewrite (value_nan x a A), (value_nan y b B), (value_lt y x b a B A). destruct (Ieee.is_nan a), (Ieee.is_nan b), (Ieee.flt qclt b a); assumption. Qed.
Lemma fold_value l l' : Forall2 is_value l l' -> forall x a, is_value x a -> is_value (fold_left minimum_f l x) (fold_left (np_minimum qclt) l' a).
Proof. induction 1 as [|y b l l' H F IH]; intros x a A; [exact A|]. cbn. apply IH. now apply minimum_value. Qed.
Definition res_value (r : res float) (r' : res (fl Qc)) : Prop := match r, r' with Ok x, Ok a => is_value x a | Raise e, Raise e' => e = e' | _, _ => False end.
Lemma amin_value l l' : Forall2 is_value l l' -> res_value (amin_f l) (np_min qclt l').
Proof. intros [|x a t t' A F]; [reflexivity|]. cbn. now apply fold_value. Qed.
Lemma argmin_from_value l l' : Forall2 is_value l l' -> forall i j m a, is_value m a -> argmin_nan_from l i j m = argmin_from qclt l' i j a.
Proof.
  induction 1 as [|x b l l' H F IH]; intros i j m a A; [reflexivity|]. cbn. rewrite (value_nan m a A), (value_nan x b H), (value_lt x m b a H A).
  destruct (Ieee.is_nan a); [reflexivity|]. destruct (Ieee.is_nan b); [reflexivity|]. destruct (Ieee.flt qclt b a); now apply IH.
Qed.
Lemma argmin_value l l' : Forall2 is_value l l' -> argmin_nan_f l = np_argmin qclt l'.
Proof. intros [|x a t t' A F]; [reflexivity|]. cbn. f_equal. now apply argmin_from_value. Qed.
Lemma firstn_value n l l' : Forall2 is_value l l' -> Forall2 is_value (firstn n l) (firstn n l').
Proof. intros F. revert n. induction F as [|x a l l' H F IH]; intros [|n]; cbn; constructor; auto. Qed.
Lemma mapM_value (f : nat -> res float) g (js : list nat) : (forall j, res_value (f j) (g j)) ->
  match mapM f js, mapM g js with Ok a, Ok b => Forall2 is_value a b | Raise e, Raise e' => e = e' | _, _ => False end.
Proof.
  intros H. induction js as [|j js IH]; [constructor|]. cbn [mapM]. specialize (H j). destruct (f j) as [x|e], (g j) as [a|e']; cbn in H; try contradiction; cbn [bind]; [|exact H].
  destruct (mapM f js) as [r|e], (mapM g js) as [r'|e']; try contradiction; cbn [bind]; [now constructor|exact IH].
Qed.
Lemma best_value_value Y Y' : Forall2 is_value Y Y' -> match best_value_f Y, best_value_fl Y' with Ok a, Ok b => Forall2 is_value a b | Raise e, Raise e' => e = e' | _, _ => False end.
Proof. intros F. unfold best_value_f, best_value_fl. rewrite (Forall2_len _ _ _ F). apply mapM_value. intros j. apply amin_value. now apply firstn_value. Qed.
Lemma results_value (X : mat) Y Y' : Forall2 is_value Y Y' -> same_report (compute_results_f X Y) (compute_results_fl X Y').
Proof.
  intros F. unfold compute_results_f, compute_results_fl. pose proof (best_value_value Y Y' F) as B. destruct (best_value_f Y) as [yb|e], (best_value_fl Y') as [yb'|e']; try contradiction; cbn [bind]; [|exact B].
  rewrite (argmin_value Y Y' F). destruct (np_argmin qclt Y') as [i|e]; cbn [bind]; [|reflexivity]. destruct (get X i) as [x|e]; cbn [bind]; [|reflexivity].
  pose proof (amin_value Y Y' F) as M. destruct (amin_f Y) as [m|e], (np_min qclt Y') as [m'|e']; cbn in M; try contradiction; cbn; auto.
Qed.

Lemma nth_error_firstn_lt {A} (l : list A) : forall n i, i < n -> nth_error (firstn n l) i = nth_error l i.
Proof. induction l as [|x l IH]; intros [|n] [|i] H; cbn; try reflexivity; try lia. apply IH. lia. Qed.
Lemma Forall_firstn {A} (P : A -> Prop) l : Forall P l -> forall n, Forall P (firstn n l).
Proof. induction 1 as [|x l H F IH]; intros [|n]; cbn; constructor; auto. Qed.
(** every list of doubles is a list of values *)
Lemma every_list (Y : list float) : exists Y', Forall2 is_value Y Y'.
Proof. induction Y as [|y Y (Y' & F)]; [exists []; constructor|]. destruct (every_double y) as (v & V). exists (v :: Y'). now constructor. Qed.
Lemma values_numbers Y Y' : Forall2 is_value Y Y' -> (forall y, In y Y -> nan_p y = false) -> Forall IeeeSpec.number Y'.
Proof.
  induction 1 as [|y v Y Y' V F IH]; intros H; constructor; [|apply IH; intros z Z; apply H; now right]. apply is_nan_false. rewrite <- (value_nan y v V). apply H. now left.
Qed.
Lemma value_at Y Y' i y : Forall2 is_value Y Y' -> nth_error Y i = Some y -> exists v, nth_error Y' i = Some v /\ is_value y v.
Proof. intros F. revert i. induction F as [|x v Y Y' V F IH]; intros [|i] E; cbn in *; try discriminate; [injection E as <-; eauto|auto]. Qed.
Lemma value_back Y Y' i v : Forall2 is_value Y Y' -> nth_error Y' i = Some v -> exists y, nth_error Y i = Some y /\ is_value y v.
Proof. intros F. revert i. induction F as [|x w Y Y' V F IH]; intros [|i] E; cbn in *; try discriminate; [injection E as <-; eauto|auto]. Qed.
Lemma least_double Y Y' m v : Forall2 is_value Y Y' -> is_value m v -> least v Y' -> (exists z, In z Y /\ same_number m z) /\ forall z, In z Y -> at_most m z.
Proof.
  intros F M (I & L). split.
  - apply In_nth_error in I as (i & I). destruct (value_back Y Y' i v F I) as (z & Z & V). exists z. split; [eapply nth_error_In; eauto|]. apply (value_same m z v M V).
    apply nth_error_In in I. specialize (L v I). intros ->. exact L.
  - intros z Z. apply In_nth_error in Z as (i & Z). destruct (value_at Y Y' i z F Z) as (w & W & V). exists v, w. split; [exact M|]. split; [exact V|]. apply L. eapply nth_error_In; eauto.
Qed.
Lemma best_value_double Y Y' : Forall2 is_value Y Y' -> exists yb, best_value_f Y = Ok yb /\ length yb = length Y /\
  forall j b, nth_error yb j = Some b -> exists v, is_value b v /\ np_min qclt (firstn (S j) Y') = Ok v.
Proof.
  intros F. pose proof (best_value_value Y Y' F) as B. destruct (best_value_fl_total Y') as (yb' & E & L & N). rewrite E in B. destruct (best_value_f Y) as [yb|e]; [|contradiction].
  exists yb. split; [reflexivity|]. split; [rewrite (Forall2_len _ _ _ B), L; symmetry; exact (Forall2_len _ _ _ F)|]. intros j b H. destruct (value_at yb yb' j b B H) as (v & V & W). exists v. split; [exact W|now apply N].
Qed.

Lemma report_ok {A} (X : list A) Y : length X = length Y -> Y <> [] -> (forall y, In y Y -> nan_p y = false) ->
  exists yb x m i y, compute_results_f X Y = Ok (yb, x, m) /\ nth_error X i = Some x /\ nth_error Y i = Some y /\ same_number m y /\
    (forall z, In z Y -> at_most m z) /\ (forall j z, j < i -> nth_error Y j = Some z -> ~ same_number m z) /\ length yb = length Y /\
    forall j b, nth_error yb j = Some b -> (exists z, In z (firstn (S j) Y) /\ same_number b z) /\ forall z, In z (firstn (S j) Y) -> at_most b z.
Proof.
  intros L NE NN. destruct (every_list Y) as (Y' & F). pose proof (values_numbers Y Y' F NN) as NY. pose proof (Forall2_len _ _ _ F) as LY.
  assert (NE' : Y' <> []) by (intros ->; destruct Y; [congruence|discriminate LY]).
  destruct (np_argmin_num Y' NE' NY) as (i & v & AM & LV & (w & W & ->) & FB). destruct (np_min_least Y' NE' NY) as (m' & MM & LM). assert (m' = v) by (eapply least_unique; eauto). subst m'.
  pose proof (amin_value Y Y' F) as AV. rewrite MM in AV. destruct (amin_f Y) as [m|e] eqn:EM; [|contradiction]. cbn in AV.
  destruct (value_back Y Y' i v F W) as (y & Hy & Vy). destruct (best_value_double Y Y' F) as (yb & EB & LB & HB).
  destruct (nth_error X i) as [x|] eqn:EX; [|apply nth_error_None in EX; assert (nth_error Y i <> None) by congruence; apply nth_error_Some in H; lia].
  assert (Nv : v <> NaN) by (intros ->; destruct LV as (I & LL); exact (LL NaN I)).
  exists yb, x, m, i, y. split. { unfold compute_results_f. rewrite EB. cbn [bind]. rewrite (argmin_value Y Y' F), AM. cbn [bind]. unfold get. rewrite EX. cbn [bind]. rewrite EM. reflexivity. }
  split; [exact EX|]. split; [exact Hy|]. split; [eapply value_same; eauto|]. split; [exact (proj2 (least_double Y Y' m v F AV LV))|]. split.
  { intros j z J Z SN. destruct (value_at Y Y' j z F Z) as (u & U & V). apply (FB j u J U). pose proof (same_value m z u SN V) as M2. eapply value_inj; eauto. }
  split; [exact LB|]. intros j b H. destruct (HB j b H) as (u & U & E). pose proof (firstn_value (S j) Y Y' F) as FF.
  assert (NF : Forall IeeeSpec.number (firstn (S j) Y')) by now apply Forall_firstn. assert (NF2 : firstn (S j) Y' <> []) by (destruct Y'; [congruence|discriminate]).
  destruct (np_min_least _ NF2 NF) as (u' & E' & LU). rewrite E in E'. injection E' as <-. exact (least_double _ _ b u FF U LU).
Qed.
Lemma report_nan {A} (X : list A) Y i x : length X = length Y -> first_at (fun y => nan_p y = true) Y i -> nth_error X i = Some x ->
  exists yb m, compute_results_f X Y = Ok (yb, x, m) /\ nan_p m = true /\ length yb = length Y /\ forall j b, nth_error yb j = Some b -> (nan_p b = true <-> i <= j).
Proof.
  intros L ((y & Hy & Ny) & FB) EX. destruct (every_list Y) as (Y' & F). destruct (value_at Y Y' i y F Hy) as (v & Hv & Vv).
  assert (v = NaN) by (apply is_nan_spec; rewrite <- (value_nan y v Vv); exact Ny). subst v.
  assert (FA : first_at (fun v => v = NaN) Y' i).
  { split; [eauto|]. intros j w J W ->. destruct (value_back Y Y' j NaN F W) as (z & Z & V). apply (FB j z J Z). rewrite (value_nan z NaN V). reflexivity. }
  pose proof (amin_value Y Y' F) as AV. rewrite (np_min_nan qclt Y') in AV by (eapply nth_error_In; eauto). destruct (amin_f Y) as [m|e] eqn:EM; [|contradiction]. cbn in AV.
  destruct (best_value_double Y Y' F) as (yb & EB & LB & HB). exists yb, m. split.
  { unfold compute_results_f. rewrite EB. cbn [bind]. rewrite (argmin_value Y Y' F), (np_argmin_nan Y' i FA). cbn [bind]. unfold get. rewrite EX. cbn [bind]. rewrite EM. reflexivity. }
  split; [subst m; reflexivity|]. split; [exact LB|]. intros j b H. destruct (HB j b H) as (u & U & E). rewrite (value_nan b u U). split.
  - intros N. apply is_nan_spec in N. subst u. destruct (Nat.le_gt_cases i j) as [K|K]; [exact K|exfalso].
    assert (NF : Forall IeeeSpec.number (firstn (S j) Y')).
    { apply Forall_forall. intros w W. apply In_nth_error in W as (k & W). assert (KL : k < S j). { assert (k < length (firstn (S j) Y')) by (apply nth_error_Some; congruence). rewrite firstn_length in H0. lia. }
      rewrite nth_error_firstn_lt in W by exact KL. intros ->. apply (proj2 FA k NaN); [lia|exact W|reflexivity]. }
    assert (NE : firstn (S j) Y' <> []) by (destruct Y'; [destruct i; discriminate Hv|discriminate]). destruct (np_min_least _ NE NF) as (u' & E' & (I & LL)). rewrite E in E'. injection E' as <-. exact (LL NaN I).
  - intros K. rewrite (np_min_nan qclt) in E; [injection E as <-; reflexivity|]. apply (nth_error_In _ i). rewrite nth_error_firstn_lt by lia. exact Hv.
Qed.
Lemma opp_same x y : same_number x (Bopp y) -> same_number (Bopp x) y.
Proof.
  intros [(N & M & E)|(s & -> & E)].
  - left. unfold FloatSpec.number, val in *. rewrite is_finite_Bopp in *. rewrite B2R_Bopp in *. split; [exact N|]. split; [exact M|]. lra.
  - right. destruct y as [s'|s'| |s' ? ? ?]; cbn in E; try discriminate. injection E as <-. exists s'. cbn. now rewrite negb_involutive.
Qed.
Lemma opp_most x y : at_most x (Bopp y) -> at_most y (Bopp x).
Proof.
  intros (a & b & A & B & L). destruct (every_double y) as (v & V). pose proof (value_inj _ _ _ B (value_opp y v V)) as ->. eexists _, _. split; [exact V|]. split; [exact (value_opp x a A)|].
  destruct a as [| | |p], v as [| | |q]; cbn in *; auto. apply Qcopp_le_compat in L. now rewrite Qcopp_involutive in L.
Qed.
