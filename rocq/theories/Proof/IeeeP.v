(** Values that are not finite numbers. *)
From Coq Require Import String List Bool Arith QArith Qcanon Lia.
From Verif.Model Require Import Py Space Design Optim Objective BO Ieee.
From Verif.Spec Require Import IeeeSpec.
From Verif.Proof Require Import Num Dec AnchorP BOMain.
Import ListNotations.
Local Open Scope nat_scope.

Lemma le_ext_refl x : number x -> le_ext x x.
Proof. destruct x; simpl; auto; try (intros H; now apply H). intros _. apply Qcle_refl. Qed.
Lemma le_ext_trans x y z : le_ext x y -> le_ext y z -> le_ext x z.
Proof. destruct x, y, z; simpl; auto; try tauto. apply Qcle_trans. Qed.
Lemma le_ext_antisym x y : le_ext x y -> le_ext y x -> x = y.
Proof. destruct x, y; simpl; auto; try tauto. intros. f_equal. now apply Qcle_antisym. Qed.
Lemma le_ext_number x y : le_ext x y -> number x /\ number y.
Proof. destruct x, y; simpl; intros H; try tauto; split; discriminate. Qed.
Lemma flt_true x y : flt qclt x y = true -> lt_ext x y.
Proof.
  unfold lt_ext. destruct x, y; simpl; try discriminate; auto.
  intro H. apply qclt_spec in H. split; [now apply Qclt_le_weak|]. now apply Qclt_not_le.
Qed.
Lemma flt_false x y : number x -> number y -> flt qclt x y = false -> le_ext y x.
Proof.
  destruct x, y; simpl; intros N1 N2; try discriminate; try tauto; try (now (contradiction N1 || contradiction N2)).
  intro H. now apply qclt_false in H.
Qed.
Lemma flt_nan x y : (x = NaN \/ y = NaN) -> flt qclt x y = false.
Proof. intros [-> | ->]; [reflexivity|]. destruct x; reflexivity. Qed.
Lemma is_nan_spec {A} (x : fl A) : is_nan x = true <-> x = NaN.
Proof. destruct x; simpl; split; congruence. Qed.
Lemma is_nan_false x : is_nan (A:=Qc) x = false <-> number x.
Proof. unfold number. rewrite <- (is_nan_spec x). destruct (is_nan x); split; congruence. Qed.

(** ---- min *)
Lemma fold_min_nan {A} (ltb : A -> A -> bool) l : forall x, In NaN (x :: l) -> fold_left (np_minimum ltb) l x = NaN.
Proof.
  induction l as [|y l IH]; intros x H; simpl.
  - destruct H as [H|[]]; auto.
  - apply IH. destruct H as [->|[->|H]]; [left; reflexivity| |right; auto].
    left. unfold np_minimum. destruct (is_nan x) eqn:N; [|reflexivity]. now apply is_nan_spec in N.
Qed.
Lemma fold_max_nan {A} (ltb : A -> A -> bool) l : forall x, In NaN (x :: l) -> fold_left (np_maximum ltb) l x = NaN.
Proof.
  induction l as [|y l IH]; intros x H; simpl.
  - destruct H as [H|[]]; auto.
  - apply IH. destruct H as [->|[->|H]]; [left; reflexivity| |right; auto].
    left. unfold np_maximum. destruct (is_nan x) eqn:N; [|reflexivity]. now apply is_nan_spec in N.
Qed.
Lemma np_minimum_num x y : number x -> number y -> (np_minimum qclt x y = x /\ le_ext x y) \/ (np_minimum qclt x y = y /\ lt_ext y x).
Proof.
  intros N1 N2. unfold np_minimum. apply is_nan_false in N1 as E1. apply is_nan_false in N2 as E2. rewrite E1, E2.
  destruct (flt qclt y x) eqn:L; [right|left]; split; auto; [now apply flt_true|now apply flt_false].
Qed.
Lemma fold_min_least l : forall x, Forall number (x :: l) -> least (fold_left (np_minimum qclt) l x) (x :: l).
Proof.
  induction l as [|y l IH]; intros x H; inversion H as [|? ? N1 N2]; subst; simpl.
  - split; [left; auto|]. intros z [<-|[]]. now apply le_ext_refl.
  - inversion N2 as [|? ? N3 N4]; subst. destruct (np_minimum_num x y N1 N3) as [(-> & L)|(-> & L)].
    + destruct (IH x) as (I & M); [constructor; auto|]. split; [destruct I; simpl; auto|].
      intros z [<-|[<-|Hz]]; [apply M; left; auto| |apply M; right; auto]. eapply le_ext_trans; [apply M; left; auto|auto].
    + destruct (IH y) as (I & M); [constructor; auto|]. split; [destruct I; simpl; auto|].
      intros z [<-|[<-|Hz]]; [|apply M; left; auto|apply M; right; auto]. eapply le_ext_trans; [apply M; left; auto|apply L].
Qed.
Lemma np_min_nan {A} (ltb : A -> A -> bool) l : In NaN l -> np_min ltb l = Ok NaN.
Proof. destruct l as [|x l]; [intros []|]. intro H. simpl. now rewrite fold_min_nan. Qed.
Lemma np_max_nan {A} (ltb : A -> A -> bool) l : In NaN l -> np_max ltb l = Ok NaN.
Proof. destruct l as [|x l]; [intros []|]. intro H. simpl. now rewrite fold_max_nan. Qed.
Lemma np_min_least l : l <> [] -> Forall number l -> exists m, np_min qclt l = Ok m /\ least m l.
Proof. destruct l as [|x l]; [congruence|]. intros _ H. eexists. split; [reflexivity|]. now apply fold_min_least. Qed.
Lemma least_unique m m' l : least m l -> least m' l -> m = m'.
Proof. intros (I & L) (I' & L'). apply le_ext_antisym; auto. Qed.

(** ---- argmin *)
Lemma argmin_from_stuck {A} (ltb : A -> A -> bool) l i j : argmin_from ltb l i j NaN = j.
Proof. destruct l; reflexivity. Qed.
Lemma argmin_from_nan l : forall i j m k, number m -> first_at (fun y => y = NaN) l k -> argmin_from qclt l i j m = i + k.
Proof.
  induction l as [|x l IH]; intros i j m k N ((y & Hy & ->) & B).
  - destruct k; discriminate.
  - simpl. apply is_nan_false in N as E. rewrite E. destruct k as [|k].
    + simpl in Hy. injection Hy as ->. simpl. lia.
    + assert (Nx : number x) by (intros ->; apply (B 0 NaN); auto; lia). apply is_nan_false in Nx as Ex. rewrite Ex.
      assert (F : first_at (fun y => y = NaN) l k).
      { split; [exists NaN; auto|]. intros i' y' L H. apply (B (S i') y'); [lia|exact H]. }
      destruct (flt qclt x m); rewrite (IH _ _ _ k); auto; lia.
Qed.
Lemma argmin_from_num l : forall i j m, number m -> Forall number l -> exists v,
  ((argmin_from qclt l i j m = j /\ v = m) \/ exists k, argmin_from qclt l i j m = i + k /\ nth_error l k = Some v /\ lt_ext v m /\
     forall k' y, k' < k -> nth_error l k' = Some y -> lt_ext v y) /\ le_ext v m /\ forall y, In y l -> le_ext v y.
Proof.
  induction l as [|x l IH]; intros i j m N F; inversion F as [|? ? Nx Fl]; subst.
  - exists m. split; [left; auto|]. split; [now apply le_ext_refl|intros ? []].
  - simpl. apply is_nan_false in N as E. apply is_nan_false in Nx as Ex. rewrite E, Ex. destruct (flt qclt x m) eqn:L.
    + apply flt_true in L. destruct (IH (S i) i x Nx Fl) as (v & C & Lv & Lb). exists v. split; [right|].
      * destruct C as [(-> & ->)|(k & -> & Hk & Lk & Bk)].
        -- exists 0. split; [lia|]. split; [reflexivity|]. split; [auto|]. lia.
        -- exists (S k). split; [lia|]. split; [exact Hk|]. split.
           { split; [eapply le_ext_trans; [exact Lv|apply L]|]. intro C. apply (proj2 L). eapply le_ext_trans; eauto. }
           intros [|k'] y Hk' Hy; [simpl in Hy; injection Hy as <-; auto|]. apply (Bk k' y); [lia|exact Hy].
      * split; [eapply le_ext_trans; [exact Lv|apply L]|]. intros y [<-|Hy]; auto.
    + apply (flt_false _ _ Nx N) in L. destruct (IH (S i) j m N Fl) as (v & C & Lv & Lb). exists v. split.
      * destruct C as [C|(k & -> & Hk & Lk & Bk)]; [left; exact C|right]. exists (S k). split; [lia|]. split; [exact Hk|]. split; [auto|].
        intros [|k'] y Hk' Hy; [simpl in Hy; injection Hy as <-|apply (Bk k' y); [lia|exact Hy]].
        split; [eapply le_ext_trans; eauto|]. intro C. apply (proj2 Lk). eapply le_ext_trans; eauto.
      * split; [auto|]. intros y [<-|Hy]; [|auto]. eapply le_ext_trans; eauto.
Qed.
Lemma np_argmin_nan l k : first_at (fun y => y = NaN) l k -> np_argmin qclt l = Ok k.
Proof.
  destruct l as [|x l]; intros ((y & Hy & ->) & B); [destruct k; discriminate|]. simpl. f_equal. destruct k as [|k].
  - simpl in Hy. injection Hy as ->. apply argmin_from_stuck.
  - assert (Nx : number x) by (intros ->; apply (B 0 NaN); auto; lia). rewrite (argmin_from_nan l 1 0 x k Nx); auto.
    split; [exists NaN; auto|]. intros i y' L H. apply (B (S i) y'); [lia|exact H].
Qed.
Lemma np_argmin_num l : l <> [] -> Forall number l -> exists i v, np_argmin qclt l = Ok i /\ least v l /\ first_at (fun y => y = v) l i.
Proof.
  destruct l as [|x l]; [congruence|]. intros _ F. inversion F as [|? ? Nx Fl]; subst. simpl.
  destruct (argmin_from_num l 1 0 x Nx Fl) as (v & C & Lv & Lb). exists (argmin_from qclt l 1 0 x), v. split; auto.
  destruct C as [(-> & ->)|(k & -> & Hk & Lk & Bk)].
  - split; [split; [left; auto|intros y [<-|Hy]; auto]|]. split; [exists x; auto|]. intros j y Hj. lia.
  - split; [split; [right; eapply nth_error_In; eauto|intros y [<-|Hy]; auto]|]. split; [exists v; auto|].
    intros [|j] y Hj Hy ->; simpl in Hy.
    + injection Hy as ->. now apply (proj2 Lk), le_ext_refl.
    + destruct (Bk j v) as (_ & Q); [lia|auto|]. apply Q. apply le_ext_refl. apply (le_ext_number _ _ Lv).
Qed.

(** ---- the report *)
Lemma best_value_fl_total Y : exists yb, best_value_fl Y = Ok yb /\ length yb = length Y /\
  forall j y, nth_error yb j = Some y -> np_min qclt (firstn (S j) Y) = Ok y.
Proof.
  unfold best_value_fl.
  assert (T : forall i, In i (seq 0 (length Y)) -> exists y, np_min qclt (firstn (i + 1) Y) = Ok y).
  { intros i Hi. apply in_seq in Hi. destruct Y as [|a Y]; [simpl in Hi; lia|]. rewrite Nat.add_1_r. simpl. eauto. }
  assert (Q : exists yb, mapM (fun i => np_min qclt (firstn (i + 1) Y)) (seq 0 (length Y)) = Ok yb).
  { revert T. generalize (seq 0 (length Y)). induction l as [|i l IH]; intro T; [eexists; reflexivity|].
    destruct (T i (or_introl eq_refl)) as (y & Hy). destruct IH as (yb & Hb); [intros; apply T; right; auto|]. exists (y :: yb). cbn [mapM]. rewrite Hy. cbn [bind]. rewrite Hb. reflexivity. }
  destruct Q as (yb & Hb). exists yb. split; auto. pose proof (mapM_length _ _ _ Hb) as L. rewrite seq_length in L. split; auto.
  intros j y Hj. apply mapM_ok_Forall2 in Hb.
  assert (G : forall s n, Forall2 (fun i y => np_min qclt (firstn (i + 1) Y) = Ok y) (seq s n) yb -> nth_error yb j = Some y -> np_min qclt (firstn (s + j + 1) Y) = Ok y).
  { clear. revert j. induction yb as [|b yb IH]; intros [|j] s n F H; try discriminate; destruct n; inversion F; subst; simpl in H.
    - injection H as <-. rewrite Nat.add_0_r. auto.
    - replace (s + S j + 1) with (S s + j + 1) by lia. eapply IH; eauto. }
  specialize (G 0 (length Y) Hb Hj). simpl in G. rewrite Nat.add_1_r in G. exact G.
Qed.

Lemma firstn_first {A} (P : A -> Prop) (Y : list A) i j : first_at P Y i -> (i <= j -> exists y, In y (firstn (S j) Y) /\ P y) /\ (j < i -> Forall (fun y => ~ P y) (firstn (S j) Y)).
Proof.
  intros ((x & Hx & Px) & B). split.
  - intro L. exists x. split; auto. apply nth_error_In with i. assert (i < S j) by lia. clear -Hx H. revert i Y Hx H. induction (S j) as [|n IH]; intros i Y Hx H; [lia|].
    destruct Y as [|y Y]; [destruct i; discriminate|]. destruct i; simpl; auto. apply IH; auto. lia.
  - intro L. apply Forall_forall. intros y Hy. apply In_nth_error in Hy as (k & Hk).
    assert (Lk : k < S j). { assert (k < length (firstn (S j) Y)) by (apply nth_error_Some; congruence). rewrite firstn_length in H. lia. }
    apply (B k); [lia|]. rewrite <- (firstn_skipn (S j) Y). rewrite nth_error_app1; auto. apply nth_error_Some; congruence.
Qed.

Lemma results_nan X Y i x : length X = length Y -> first_at (fun y => y = NaN) Y i -> nth_error X i = Some x ->
  exists yb, compute_results_fl X Y = Ok (yb, x, NaN) /\ length yb = length Y /\
    forall j y, nth_error yb j = Some y -> (i <= j -> y = NaN) /\ (j < i -> least y (firstn (S j) Y)).
Proof.
  intros L F Hx. destruct (best_value_fl_total Y) as (yb & Hb & Lb & B). exists yb. split.
  - unfold compute_results_fl. rewrite Hb. cbn [bind]. rewrite (np_argmin_nan Y i F). cbn [bind]. rewrite (get_some _ _ _ Hx). cbn [bind].
    rewrite np_min_nan; [reflexivity|]. destruct F as ((y & Hy & ->) & _). eapply nth_error_In; eauto.
  - split; auto. intros j y Hj. apply B in Hj. destruct (firstn_first _ _ _ j F) as (F1 & F2). split.
    + intro Q. destruct (F1 Q) as (y' & I & ->). rewrite np_min_nan in Hj by auto. congruence.
    + intro Q. destruct (np_min_least (firstn (S j) Y)) as (m & Hm & Lm).
      * destruct F as ((z & Hz & _) & _). destruct Y; [destruct i; discriminate|]. discriminate.
      * exact (F2 Q).
      * rewrite Hj in Hm. injection Hm as <-. exact Lm.
Qed.

Lemma results_numbers X Y : length X = length Y -> Y <> [] -> Forall number Y ->
  exists yb x m i, compute_results_fl X Y = Ok (yb, x, m) /\ least m Y /\ first_at (fun y => y = m) Y i /\ nth_error X i = Some x /\
    length yb = length Y /\ forall j y, nth_error yb j = Some y -> least y (firstn (S j) Y).
Proof.
  intros L NE F. destruct (best_value_fl_total Y) as (yb & Hb & Lb & B). destruct (np_argmin_num Y NE F) as (i & v & Hi & Lv & Fv).
  destruct (np_min_least Y NE F) as (m & Hm & Lm). assert (v = m) as -> by (eapply least_unique; eauto).
  destruct (nth_error X i) as [x|] eqn:Hx.
  2:{ apply nth_error_None in Hx. destruct Fv as ((y & Hy & _) & _). assert (i < length Y) by (apply nth_error_Some; congruence). lia. }
  exists yb, x, m, i. split.
  - unfold compute_results_fl. rewrite Hb. cbn [bind]. rewrite Hi. cbn [bind]. rewrite (get_some _ _ _ Hx). cbn [bind]. rewrite Hm. reflexivity.
  - split; auto. split; auto. split; auto. split; auto. intros j y Hj. apply B in Hj.
    destruct (np_min_least (firstn (S j) Y)) as (w & Hw & Lw).
    + destruct Y; [congruence|discriminate].
    + apply Forall_forall. intros z Hz. rewrite Forall_forall in F. apply F. rewrite <- (firstn_skipn (S j) Y). apply in_or_app. auto.
    + rewrite Hj in Hw. injection Hw as <-. exact Lw.
Qed.

(** finite values: the same as the report of BO.v *)
Lemma fold_min_fin l : forall a, fold_left (np_minimum qclt) (map Fin l) (Fin a) = Fin (lmin a l).
Proof.
  unfold lmin. induction l as [|b l IH]; intro a; [reflexivity|]. cbn [map fold_left]. unfold np_minimum at 2. cbn [is_nan flt].
  destruct (qclt b a); apply IH.
Qed.
Lemma argmin_from_fin l : forall i j a, argmin_from qclt (map Fin l) i j (Fin a) = argbest_from qclt l i j a.
Proof. induction l as [|b l IH]; intros i j a; [reflexivity|]. cbn [map argmin_from is_nan flt argbest_from]. destruct (qclt b a); apply IH. Qed.
Lemma results_agree {M} (s s' : st M) Y : s_Y s = Some Y -> compute_results s = (s', Ok tt) ->
  exists yb x m, s_report s' = Some (yb, x, m) /\ compute_results_fl (s_X s) (map Fin Y) = Ok (map Fin yb, x, Fin m).
Proof.
  intros SY H. unfold compute_results in H. rewrite SY in H. destruct (argmin Y) as [i|] eqn:A; [|discriminate].
  destruct (get (s_X s) i) as [x|] eqn:G; [|discriminate]. destruct (py_min Y) as [m|] eqn:P; [|discriminate]. injection H as <-.
  exists (best_value Y), x, m. split; [reflexivity|]. unfold compute_results_fl.
  assert (B : best_value_fl (map Fin Y) = Ok (map Fin (best_value Y))).
  { unfold best_value_fl, best_value. rewrite map_length, map_map. apply mapM_all_ok. intros j Hj. rewrite Nat.add_1_r, firstn_map.
    destruct Y as [|a Y]; [discriminate|]. cbn [firstn map np_min]. now rewrite fold_min_fin. }
  rewrite B. cbn [bind]. destruct Y as [|a Y]; [discriminate|]. cbn [map np_argmin]. rewrite argmin_from_fin.
  unfold argmin, argbest in A. injection A as ->. cbn [bind]. rewrite G. cbn [bind np_min]. rewrite fold_min_fin. injection P as <-. reflexivity.
Qed.

(** ---- candidates *)
Lemma min_by_stuck {B} (key : B -> fl Qc) l : forall b, key b = NaN -> min_by_from qclt key l b = b.
Proof. induction l as [|x l IH]; intros b H; [reflexivity|]. cbn [min_by_from]. rewrite flt_nan; auto. Qed.
Lemma min_by_num {B} (key : B -> fl Qc) l : forall b, number (key b) ->
  let r := min_by_from qclt key l b in
  In r (b :: l) /\ number (key r) /\ forall x, In x (b :: l) -> number (key x) -> le_ext (key r) (key x).
Proof.
  induction l as [|x l IH]; intros b N r; subst r; cbn [min_by_from].
  - split; [left; auto|]. split; auto. intros y [<-|[]] _. now apply le_ext_refl.
  - destruct (is_nan (key x)) eqn:Nx.
    + apply is_nan_spec in Nx. rewrite flt_nan by auto. destruct (IH b N) as (I & K & L). split; [destruct I; simpl; auto|]. split; auto.
      intros y [<-|[<-|Hy]] Ny; [exact (L b (or_introl eq_refl) N)|congruence|exact (L y (or_intror Hy) Ny)].
    + apply is_nan_false in Nx. destruct (flt qclt (key x) (key b)) eqn:F.
      * apply flt_true in F. destruct (IH x Nx) as (I & K & L). split; [destruct I; simpl; auto|]. split; auto.
        pose proof (L x (or_introl eq_refl) Nx) as Lx.
        intros y [<-|[<-|Hy]] Ny; [|exact Lx|exact (L y (or_intror Hy) Ny)]. eapply le_ext_trans; [exact Lx|apply F].
      * apply (flt_false _ _ Nx N) in F. destruct (IH b N) as (I & K & L). split; [destruct I; simpl; auto|]. split; auto.
        pose proof (L b (or_introl eq_refl) N) as Lx.
        intros y [<-|[<-|Hy]] Ny; [exact Lx| |exact (L y (or_intror Hy) Ny)]. eapply le_ext_trans; [exact Lx|exact F].
Qed.
Lemma min_by_first {B} (key : B -> fl Qc) l : forall b, number (key b) ->
  exists i, nth_error (b :: l) i = Some (min_by_from qclt key l b) /\
    forall j y, j < i -> nth_error (b :: l) j = Some y -> ~ le_ext (key y) (key (min_by_from qclt key l b)).
Proof.
  induction l as [|x l IH]; intros b N; cbn [min_by_from].
  - exists 0. split; [reflexivity|]. lia.
  - destruct (flt qclt (key x) (key b)) eqn:F.
    + apply flt_true in F. destruct (IH x) as (i & Hi & Li); [apply (le_ext_number _ _ (proj1 F))|]. exists (S i). split; [exact Hi|].
      intros [|j] y Lj Hj; [|apply (Li j y); [lia|exact Hj]]. simpl in Hj. injection Hj as <-. intro C.
      destruct (min_by_num key l x (proj1 (le_ext_number _ _ (proj1 F)))) as (_ & _ & L). apply (proj2 F). eapply le_ext_trans; [exact C|].
      apply L; [left; auto|apply (le_ext_number _ _ (proj1 F))].
    + destruct (IH b N) as (i & Hi & Li). destruct i as [|i].
      * exists 0. simpl in Hi. injection Hi as E. split; [simpl; now rewrite <- E|]. lia.
      * exists (S (S i)). split; [exact Hi|]. intros j y Lj Hj. destruct j as [|[|j]].
        -- apply (Li 0 y); [lia|exact Hj].
        -- simpl in Hj. injection Hj as <-. intro C. pose proof (Li 0 b (Nat.lt_0_succ i) eq_refl) as Q. apply Q.
           destruct (le_ext_number _ _ C) as (Nx & _). apply (flt_false _ _ Nx N) in F. eapply le_ext_trans; eauto.
        -- apply (Li (S j) y); [lia|exact Hj].
Qed.

Lemma candidate_number pts p : nth_error pts 0 = Some p -> number (snd p) ->
  exists r i, best_candidate pts = Ok r /\ nth_error pts i = Some r /\ number (snd r) /\
    (forall y, In y pts -> number (snd y) -> le_ext (snd r) (snd y)) /\
    (forall j y, j < i -> nth_error pts j = Some y -> ~ le_ext (snd y) (snd r)).
Proof.
  destruct pts as [|b l]; [discriminate|]. intros H N. simpl in H. injection H as ->. exists (min_by_from qclt snd l p).
  destruct (min_by_num snd l p N) as (I & K & L). destruct (min_by_first snd l p N) as (i & Hi & Li). exists i. repeat (split; [solve [auto]|]). exact Li.
Qed.
Lemma candidate_nan pts p : nth_error pts 0 = Some p -> snd p = NaN -> best_candidate pts = Ok p.
Proof. destruct pts as [|b l]; [discriminate|]. intros H N. simpl in H. injection H as ->. unfold best_candidate, min_by. now rewrite min_by_stuck. Qed.
Lemma results_penalty X Y a : length X = length Y -> ~ In NaN Y -> ~ In NInf Y -> In (Fin a) Y ->
  exists yb x m, compute_results_fl X Y = Ok (yb, x, Fin m) /\ In (Fin m) Y /\ (forall b, In (Fin b) Y -> (m <= b)%Qc) /\
    exists i, nth_error Y i = Some (Fin m) /\ nth_error X i = Some x.
Proof.
  intros L NN NI I. destruct (results_numbers X Y L) as (yb & x & m & i & H & (Lm & Ll) & ((y & Hy & ->) & _) & Hx & _).
  - intros ->; destruct I.
  - apply Forall_forall. intros y Hy ->. auto.
  - pose proof (Ll _ I) as Q. destruct m as [| | |m]; try (exfalso; auto; fail).
    exists yb, x, m. split; auto. split; auto. split; [intros b Hb; exact (Ll _ Hb)|]. exists i. auto.
Qed.
