(** normalize on data that contain NaN or infinities. *)
From Coq Require Import String List Bool Arith Reals Lra Lia.
From Verif.Model Require Import Py Ieee Util.
From Verif.Spec Require Import IeeeSpec UtilSpec.
From Verif.Proof Require Import IeeeP UtilP.
Import ListNotations.
Local Open Scope R_scope.

Lemma rltb_spec a b : rltb a b = true <-> a < b.
Proof. unfold rltb. destruct (Rlt_dec a b); split; intros; auto; discriminate. Qed.
Lemma rltb_false a b : rltb a b = false <-> b <= a.
Proof. unfold rltb. destruct (Rlt_dec a b); split; intros; try discriminate; try lra; auto. Qed.

Lemma fsum_fin l : fsum (map Fin l) = Fin (total l).
Proof. induction l as [|a l IH]; [reflexivity|]. change (fsum (map Fin (a :: l))) with (fadd (Fin a) (fsum (map Fin l))). rewrite IH. reflexivity. Qed.
Lemma fmean_fin l : l <> [] -> fmean (map Fin l) = Fin (mean l).
Proof.
  intro NE. unfold fmean, mean. rewrite fsum_fin, map_length. cbn [fdiv]. destruct (Req_EM_T (INR (length l)) 0) as [E|]; [|reflexivity].
  apply (INR_eq _ 0%nat) in E. destruct l; [congruence|discriminate].
Qed.
Lemma mean_nonneg l : (forall y, In y l -> 0 <= y) -> 0 <= mean l.
Proof.
  intro H. unfold mean. assert (T : 0 <= total l).
  { induction l as [|a l IH]; simpl; [lra|]. specialize (IH (fun y I => H y (or_intror I))). specialize (H a (or_introl eq_refl)). lra. }
  destruct l as [|a l]; [simpl; unfold Rdiv; rewrite Rmult_0_l; lra|]. apply Rmult_le_pos; auto. left. apply Rinv_0_lt_compat. apply lt_0_INR. simpl. lia.
Qed.
Lemma fstd_fin l : l <> [] -> fstd (map Fin l) = Fin (std l).
Proof.
  intro NE. unfold fstd. rewrite fmean_fin by auto. rewrite map_map.
  rewrite (map_ext _ (fun y => Fin ((y - mean l) * (y - mean l)))) by (intro; reflexivity).
  rewrite <- (map_map (fun y => (y - mean l) * (y - mean l)) Fin), fmean_fin by (destruct l; [congruence|discriminate]).
  unfold fsqrt, std. destruct (rltb _ 0) eqn:E; [|reflexivity]. apply rltb_spec in E.
  exfalso. refine (Rlt_not_le _ _ E _). apply mean_nonneg. intros y Hy. apply in_map_iff in Hy as (z & <- & _). apply Rle_0_sqr.
Qed.
Lemma fold_minR_fin l : forall a, fold_left (np_minimum rltb) (map Fin l) (Fin a) = Fin (fold_left Rmin l a).
Proof.
  induction l as [|b l IH]; intro a; [reflexivity|]. cbn [map fold_left]. unfold np_minimum at 2. cbn [is_nan flt]. unfold Rmin at 2, rltb at 2.
  destruct (Rlt_dec b a), (Rle_dec a b); try lra; apply IH.
Qed.
Lemma fold_maxR_fin l : forall a, fold_left (np_maximum rltb) (map Fin l) (Fin a) = Fin (fold_left Rmax l a).
Proof.
  induction l as [|b l IH]; intro a; [reflexivity|]. cbn [map fold_left]. unfold np_maximum at 2. cbn [is_nan flt]. unfold Rmax at 2, rltb at 2.
  destruct (Rlt_dec a b), (Rle_dec a b); try lra; try apply IH. assert (a = b) as -> by lra. apply IH.
Qed.

Theorem normalize_finite shape Y t : Y <> [] -> vector_shape shape (length Y) ->
  normalize_fl shape (map Fin Y) t = (N <- normalize shape Y t ;; Ok (map Fin N)).
Proof.
  intros NE _. unfold normalize_fl, normalize. rewrite map_length. destruct (negb _); [reflexivity|]. destruct (String.eqb t "stats").
  - rewrite fmean_fin, fstd_fin by auto. cbn [flt bind]. unfold rltb. destruct (Rlt_dec 0 (std Y)); cbn [bind]; f_equal; rewrite !map_map; apply map_ext; intro y; [|reflexivity].
    cbn [fsub fadd fopp fdiv]. destruct (Req_EM_T (std Y) 0); [lra|reflexivity].
  - destruct (String.eqb t "maxmin"); [|reflexivity].
    assert (E1 : np_min rltb (map Fin Y) = Ok (Fin (lmin Y))) by (destruct Y; [congruence|]; cbn [map np_min]; now rewrite fold_minR_fin).
    assert (E2 : np_max rltb (map Fin Y) = Ok (Fin (lmax Y))) by (destruct Y; [congruence|]; cbn [map np_max]; now rewrite fold_maxR_fin).
    rewrite E1, E2. cbn [bind]. set (b := lmin Y). set (c := lmax Y).
    change (flt rltb (Fin 0) (fsub (Fin c) (Fin b))) with (rltb 0 (c - b)). unfold rltb. destruct (Rlt_dec 0 (c - b)) as [L|L]; f_equal; rewrite !map_map; apply map_ext; intro y; [|reflexivity].
    cbn [fsub fadd fopp fdiv]. destruct (Req_EM_T (c + - b) 0); [lra|reflexivity].
Qed.

(** ---- 'stats' *)
Definition nonfinite (x : fl R) : Prop := ~ finite_value x.
Lemma nonfinite_cases x : nonfinite x <-> x = NaN \/ x = NInf \/ x = PInf.
Proof. unfold nonfinite, finite_value. destruct x; split; intros H; auto; try (intros (b & E); discriminate).
  - exfalso. apply H. eauto.
  - destruct H as [H|[H|H]]; discriminate. Qed.
Lemma fadd_nonfinite x y : nonfinite x \/ nonfinite y -> nonfinite (fadd x y).
Proof. rewrite !nonfinite_cases. destruct x, y; simpl; intros [[H|[H|H]]|[H|[H|H]]]; try discriminate; auto. Qed.
Lemma fsum_nonfinite l : Exists nonfinite l -> nonfinite (fsum l).
Proof. induction 1; cbn [fsum fold_right]; apply fadd_nonfinite; auto. Qed.
Lemma fsum_nan l : In NaN l -> fsum l = NaN.
Proof.
  induction l as [|x l IH]; [intros []|]. cbn [fsum fold_right]. intros [->|H]; [reflexivity|]. specialize (IH H). unfold fsum in IH. rewrite IH. destruct x; reflexivity.
Qed.
Lemma fmean_nonfinite l : Exists nonfinite l -> nonfinite (fmean l).
Proof.
  intro H. unfold fmean. pose proof (fsum_nonfinite l H) as Q. apply nonfinite_cases in Q. apply nonfinite_cases.
  assert (P : 0 < INR (length l)) by (apply lt_0_INR; destruct H; simpl; lia).
  assert (E : rltb 0 (INR (length l)) = true) by now apply rltb_spec.
  destruct Q as [->|[->| ->]]; cbn; unfold signed_inf; cbn; destruct (Req_EM_T (INR (length l)) 0); auto; rewrite E; auto.
Qed.
Lemma fsub_nonfinite_one y m : nonfinite m -> nonfinite (fsub y m).
Proof. rewrite !nonfinite_cases. intros [->|[->| ->]]; destruct y; cbn; auto. Qed.
Lemma same_inf_nan y m : nonfinite y -> nonfinite m -> (y = NaN \/ m = NaN \/ y = m) -> fsub y m = NaN.
Proof. rewrite !nonfinite_cases. intros [->|[->| ->]] [->|[->| ->]] [H|[H|H]]; try discriminate; reflexivity. Qed.
(* the mean of data with an infinity is that infinity, or NaN; so some difference is NaN *)
Lemma fsum_is l : match fsum l with
  | PInf => In PInf l
  | NInf => In NInf l
  | NaN => In NaN l \/ (In PInf l /\ In NInf l)
  | Fin _ => True end.
Proof.
  induction l as [|x l IH]; cbn [fsum fold_right]; [exact I|]. change (fold_right fadd (Fin 0) l) with (fsum l) in *.
  destruct x, (fsum l); simpl; tauto.
Qed.
Lemma some_nan_diff l : Exists nonfinite l -> In NaN (map (fun y => fmul (fsub y (fmean l)) (fsub y (fmean l))) l).
Proof.
  intro H. pose proof (fsum_is l) as S. pose proof (fsum_nonfinite l H) as Q. apply nonfinite_cases in Q.
  assert (P : 0 < INR (length l)) by (apply lt_0_INR; destruct H; simpl; lia).
  assert (E : rltb 0 (INR (length l)) = true) by now apply rltb_spec.
  assert (F : fmean l = fsum l).
  { unfold fmean. destruct Q as [->|[->| ->]]; cbn; unfold signed_inf; cbn; destruct (Req_EM_T (INR (length l)) 0); auto; rewrite E; auto. }
  rewrite F. destruct Q as [Q|[Q|Q]]; rewrite Q in S; rewrite Q.
  - destruct l as [|x l]; [inversion H|]. left. destruct x; reflexivity.
  - apply in_map_iff. exists NInf. split; auto.
  - apply in_map_iff. exists PInf. split; auto.
Qed.
Lemma fstd_nan l : Exists nonfinite l -> fstd l = NaN.
Proof. intro H. unfold fstd. cbv zeta. unfold fmean at 1. rewrite (fsum_nan _ (some_nan_diff l H)). reflexivity. Qed.

Theorem normalize_stats_nonfinite shape Y : vector_shape shape (length Y) -> Exists (fun y => ~ finite_value y) Y ->
  exists N, normalize_fl shape Y "stats" = Ok N /\ length N = length Y /\ Forall (fun v => ~ finite_value v) N.
Proof.
  intros SH H. assert (LP : (0 < length Y)%nat) by (destruct H; simpl; lia). unfold normalize_fl. rewrite (vector_shape_max _ _ LP SH), Nat.eqb_refl. cbn [negb]. change (String.eqb "stats" "stats") with true. cbv iota zeta.
  rewrite (fstd_nan Y H). cbn [flt]. eexists. split; [reflexivity|]. rewrite map_length. split; auto.
  apply Forall_forall. intros v Hv. apply in_map_iff in Hv as (y & <- & _). apply fsub_nonfinite_one. now apply fmean_nonfinite.
Qed.

(** ---- 'maxmin' *)
Lemma np_min_R l : l <> [] -> ~ In NaN l -> exists m, np_min rltb l = Ok m /\ m <> NaN /\ In m l /\ (In NInf l -> m = NInf) /\ (m = PInf -> forall y, In y l -> y = PInf).
Proof.
  destruct l as [|x l]; [congruence|]. intros _. simpl np_min. revert x. induction l as [|y l IH]; intros x NN.
  - exists x. simpl. split; auto. split; [intros ->; apply NN; left; auto|]. split; [auto|]. split; [intros [H|[]]; auto|]. intros -> z [H|[]]; auto.
  - cbn [fold_left]. assert (Q : np_minimum rltb x y = x \/ np_minimum rltb x y = y).
    { unfold np_minimum. destruct (is_nan x), (is_nan y), (flt rltb y x); auto. }
    destruct (IH (np_minimum rltb x y)) as (m & Hm & N & I & J & K).
    { intros [H|H]; [|apply NN; right; right; auto]. destruct Q as [Q|Q]; rewrite Q in H; apply NN; [left|right; left]; auto. }
    exists m. split; auto. split; auto. split; [destruct I as [I|I]; [destruct Q as [Q|Q]; rewrite Q in I; simpl; auto|simpl; auto]|].
    assert (Nx : x <> NaN) by (intros ->; apply NN; left; auto). assert (Ny : y <> NaN) by (intros ->; apply NN; right; left; auto).
    split.
    + intros H. apply J. destruct H as [->|[->|H]]; [left|left|right; auto]; unfold np_minimum; cbn.
      * destruct (is_nan y) eqn:E; [apply is_nan_spec in E; congruence|]. destruct y; reflexivity.
      * destruct (is_nan x) eqn:E; [apply is_nan_spec in E; congruence|]. destruct x; try reflexivity; congruence.
    + intros -> z Hz. specialize (K eq_refl). assert (E : np_minimum rltb x y = PInf) by (apply K; left; auto).
      assert (x = PInf /\ y = PInf) as (-> & ->).
      { unfold np_minimum in E. destruct x, y; cbn in E; try congruence; auto. destruct (rltb a0 a); congruence. }
      destruct Hz as [<-|[<-|Hz]]; auto. apply K. right; auto.
Qed.
Lemma np_max_R l : l <> [] -> ~ In NaN l -> exists m, np_max rltb l = Ok m /\ m <> NaN /\ In m l /\ (In PInf l -> m = PInf) /\ (m = NInf -> forall y, In y l -> y = NInf).
Proof.
  destruct l as [|x l]; [congruence|]. intros _. simpl np_max. revert x. induction l as [|y l IH]; intros x NN.
  - exists x. simpl. split; auto. split; [intros ->; apply NN; left; auto|]. split; [auto|]. split; [intros [H|[]]; auto|]. intros -> z [H|[]]; auto.
  - cbn [fold_left]. assert (Q : np_maximum rltb x y = x \/ np_maximum rltb x y = y).
    { unfold np_maximum. destruct (is_nan x), (is_nan y), (flt rltb x y); auto. }
    destruct (IH (np_maximum rltb x y)) as (m & Hm & N & I & J & K).
    { intros [H|H]; [|apply NN; right; right; auto]. destruct Q as [Q|Q]; rewrite Q in H; apply NN; [left|right; left]; auto. }
    exists m. split; auto. split; auto. split; [destruct I as [I|I]; [destruct Q as [Q|Q]; rewrite Q in I; simpl; auto|simpl; auto]|].
    assert (Nx : x <> NaN) by (intros ->; apply NN; left; auto). assert (Ny : y <> NaN) by (intros ->; apply NN; right; left; auto).
    split.
    + intros H. apply J. destruct H as [->|[->|H]]; [left|left|right; auto]; unfold np_maximum; cbn.
      * destruct (is_nan y) eqn:E; [apply is_nan_spec in E; congruence|]. destruct y; reflexivity.
      * destruct (is_nan x) eqn:E; [apply is_nan_spec in E; congruence|]. destruct x; try reflexivity; congruence.
    + intros -> z Hz. specialize (K eq_refl). assert (E : np_maximum rltb x y = NInf) by (apply K; left; auto).
      assert (x = NInf /\ y = NInf) as (-> & ->).
      { unfold np_maximum in E. destruct x, y; cbn in E; try congruence; auto. destruct (rltb a a0); congruence. }
      destruct Hz as [<-|[<-|Hz]]; auto. apply K. right; auto.
Qed.

Theorem normalize_maxmin_nonfinite shape Y : vector_shape shape (length Y) -> Exists (fun y => ~ finite_value y) Y ->
  exists N, normalize_fl shape Y "maxmin" = Ok N /\ length N = length Y /\ Forall (fun v => v = NaN \/ v = Fin (-1)) N /\
    (In NaN Y \/ In NInf Y -> Forall (fun v => v = NaN) N).
Proof.
  intros SH H. assert (LP : (0 < length Y)%nat) by (destruct H; simpl; lia). unfold normalize_fl. rewrite (vector_shape_max _ _ LP SH), Nat.eqb_refl. cbn [negb].
  change (String.eqb "maxmin" "stats") with false. change (String.eqb "maxmin" "maxmin") with true. cbv iota zeta.
  assert (NE : Y <> []) by (destruct H; discriminate).
  assert (DN : In NaN Y \/ ~ In NaN Y).
  { clear. induction Y as [|y Y [IH|IH]]; [right; intros []|left; right; auto|]. destruct y; [left; left; auto|right|right|right]; intros [Q|Q]; try discriminate; auto. }
  assert (DI : In NInf Y \/ ~ In NInf Y).
  { clear. induction Y as [|y Y [IH|IH]]; [right; intros []|left; right; auto|]. destruct y; [right|left; left; auto|right|right]; intros [Q|Q]; try discriminate; auto. }
  destruct DN as [DN|DN].
  { rewrite np_min_nan, np_max_nan by auto. cbn [bind flt fsub fadd]. eexists. split; [reflexivity|]. rewrite map_length. split; auto.
    assert (Q : Forall (fun v => v = NaN) (map (fun y => fsub y NaN) Y)) by (apply Forall_forall; intros v Hv; apply in_map_iff in Hv as (y & <- & _); destruct y; reflexivity).
    split; auto. revert Q. apply Forall_impl. auto. }
  destruct (np_min_R Y NE DN) as (m & -> & Nm & Im & Jm & Km). destruct (np_max_R Y NE DN) as (c & -> & Nc & Ic & Jc & Kc). cbn [bind].
  assert (All : forall N, length N = length Y -> Forall (fun v => v = NaN) N -> length N = length Y /\ Forall (fun v => v = NaN \/ v = Fin (-1)) N /\ (In NaN Y \/ In NInf Y -> Forall (fun v => v = NaN) N)).
  { intros N L F. split; auto. split; auto. revert F. apply Forall_impl. auto. }
  destruct DI as [DI|DI].
  - rewrite (Jm DI) in *. destruct c; cbn [fsub fopp fadd flt]; try congruence.
    + eexists. split; [reflexivity|]. apply All; [now rewrite map_length|]. apply Forall_forall. intros v Hv. apply in_map_iff in Hv as (y & <- & I). rewrite (Kc eq_refl y I). reflexivity.
    + eexists. split; [reflexivity|]. apply All; [now rewrite !map_length|]. apply Forall_forall. intros v Hv. rewrite map_map in Hv. apply in_map_iff in Hv as (y & <- & I). destruct y; reflexivity.
    + eexists. split; [reflexivity|]. apply All; [now rewrite !map_length|]. apply Forall_forall. intros v Hv. rewrite map_map in Hv. apply in_map_iff in Hv as (y & <- & I). destruct y; reflexivity.
  - assert (PI : In PInf Y).
    { apply Exists_exists in H as (y & Hy & Q). apply nonfinite_cases in Q as [->|[->| ->]]; tauto. }
    rewrite (Jc PI) in *. destruct m; cbn [fsub fopp fadd flt]; try congruence.
    + eexists. split; [reflexivity|]. apply All; [now rewrite map_length|]. apply Forall_forall. intros v Hv. apply in_map_iff in Hv as (y & <- & I). rewrite (Km eq_refl y I). reflexivity.
    + eexists. split; [reflexivity|]. split; [now rewrite !map_length|]. split; [|tauto]. apply Forall_forall. intros v Hv. rewrite map_map in Hv. apply in_map_iff in Hv as (y & <- & I).
      destruct y; try (exfalso; apply DN; exact I); try (exfalso; apply DI; exact I); [left; reflexivity|right]. cbn. f_equal. lra.
Qed.
