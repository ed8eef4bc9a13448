(** Choosing start points and the suggestion in double precision: proofs. *)
From Coq Require Import List ZArith Bool Reals Lra Lia Permutation SpecFloat.
From Flocq Require Import Core IEEE754.BinarySingleNaN.
From Verif.Model Require Import Py Float FloatAcq FloatAnchor Optim.
From Verif.Spec Require Import FloatSpec FloatAcqSpec FloatAnchorSpec.
From Verif.Proof Require Import Num FloatP FloatStopP FloatAcqP.
Import ListNotations.
Local Open Scope R_scope.

(** ---- < on doubles that are not NaN is a strict weak order *)
Lemma flt_nan_l : forall x y, nan_p x = true -> flt x y = false.
Proof. intros [?|?| |? ? ? ?] y H; try discriminate. reflexivity. Qed.
Lemma flt_nan_r : forall x y, nan_p y = true -> flt x y = false.
Proof. intros [s|s| |s ? ? ?] [?|?| |? ? ? ?] H; try discriminate; try reflexivity; destruct s; reflexivity. Qed.
(** numbers and infinities by their place among the reals *)
Definition place (x : float) : R := if is_finite x then val x else match x with B754_infinity true => - bpow radix2 1024 | _ => bpow radix2 1024 end.
Lemma flt_place : forall x y, nan_p x = false -> nan_p y = false -> flt x y = Rlt_bool (place x) (place y).
Proof.
  intros x y Hx Hy. pose proof (val_lt x) as Vx. pose proof (val_lt y) as Vy. apply Rabs_def2 in Vx, Vy. pose proof (bpow_gt_0 radix2 1024) as B.
  destruct (three x Hx) as [Nx|[-> | ->]]; destruct (three y Hy) as [Ny|[-> | ->]].
  - unfold place. rewrite Nx, Ny. apply flt_ok; assumption.
  - unfold place at 1. rewrite Nx. change (place plus_inf) with (bpow radix2 1024). rewrite Rlt_bool_true by lra. destruct x as [?|?| |[|] ? ? ?]; try discriminate; reflexivity.
  - unfold place at 1. rewrite Nx. change (place minus_inf) with (- bpow radix2 1024). rewrite Rlt_bool_false by lra. destruct x as [?|?| |[|] ? ? ?]; try discriminate; reflexivity.
  - unfold place at 2. rewrite Ny. change (place plus_inf) with (bpow radix2 1024). rewrite Rlt_bool_false by lra. destruct y as [?|?| |[|] ? ? ?]; try discriminate; reflexivity.
  - change (place plus_inf) with (bpow radix2 1024). rewrite Rlt_bool_false by lra. reflexivity.
  - change (place plus_inf) with (bpow radix2 1024). change (place minus_inf) with (- bpow radix2 1024). rewrite Rlt_bool_false by lra. reflexivity.
  - unfold place at 2. rewrite Ny. change (place minus_inf) with (- bpow radix2 1024). rewrite Rlt_bool_true by lra. destruct y as [?|?| |[|] ? ? ?]; try discriminate; reflexivity.
  - change (place plus_inf) with (bpow radix2 1024). change (place minus_inf) with (- bpow radix2 1024). rewrite Rlt_bool_true by lra. reflexivity.
  - change (place minus_inf) with (- bpow radix2 1024). rewrite Rlt_bool_false by lra. reflexivity.
Qed.
Lemma flt_true_le : forall x y, nan_p x = false -> nan_p y = false -> flt x y = true -> place x < place y.
Proof. intros x y Hx Hy H. rewrite flt_place in H by assumption. destruct (Rlt_bool_spec (place x) (place y)); [assumption | discriminate]. Qed.
Lemma flt_false_le : forall x y, nan_p x = false -> nan_p y = false -> flt x y = false -> place y <= place x.
Proof. intros x y Hx Hy H. rewrite flt_place in H by assumption. destruct (Rlt_bool_spec (place x) (place y)); [discriminate | assumption]. Qed.
Lemma flt_of_lt : forall x y, nan_p x = false -> nan_p y = false -> place x < place y -> flt x y = true.
Proof. intros x y Hx Hy H. rewrite flt_place by assumption. now apply Rlt_bool_true. Qed.
Lemma flt_of_le : forall x y, nan_p x = false -> nan_p y = false -> place y <= place x -> flt x y = false.
Proof. intros x y Hx Hy H. rewrite flt_place by assumption. now apply Rlt_bool_false. Qed.

(** ---- start points *)
Lemma mapM_get : forall {A} (X : list A) is, (forall i, In i is -> (i < length X)%nat) -> exists ys, mapM (get X) is = Ok ys /\
  length ys = length is /\ forall k i, nth_error is k = Some i -> exists y, nth_error ys k = Some y /\ nth_error X i = Some y.
Proof.
  intros A X. induction is as [|i is IH]; intros H.
  - exists []. split; [reflexivity|]. split; [reflexivity|]. intros [|k] i E; discriminate.
  - destruct (IH (fun j J => H j (or_intror J))) as (ys & E & L & F). destruct (nth_error X i) as [y|] eqn:Ex.
    2:{ apply nth_error_None in Ex. specialize (H i (or_introl eq_refl)). lia. }
    exists (y :: ys). cbn [mapM]. unfold get at 1. rewrite Ex. cbn. rewrite E. split; [reflexivity|]. split; [cbn; lia|].
    intros [|k] j Ej; [cbn in Ej; assert (i = j) by congruence; subst; exists y; auto | apply F; exact Ej].
Qed.
Lemma NoDup_front : forall {A} (l m : list A), NoDup (l ++ m) -> NoDup l.
Proof.
  intros A. induction l as [|a l IH]; intros m H; [constructor|]. inversion H; subst. constructor; [intros I; apply H2, in_or_app; auto | eapply IH; eassumption].
Qed.
Lemma anchors_spec : forall {A} (X : list A) scores order num, length scores = length X -> sorts scores order ->
  exists ys, anchors_f X scores order num = Ok ys /\ exists chosen, NoDup chosen /\ length chosen = Nat.min (length X) num /\
    chosen = firstn (Nat.min (length X) num) order /\
    Forall2 (fun i y => nth_error X i = Some y) chosen ys /\
    forall i j a b, In i chosen -> (j < length X)%nat -> ~ In j chosen -> nth_error scores i = Some a -> nth_error scores j = Some b -> before a b.
Proof.
  intros A X scores order num L [P S]. unfold anchors_f. rewrite L. set (c := firstn (Nat.min (length X) num) order).
  assert (Lo : length order = length X) by (rewrite (Permutation_length P), seq_length; exact L).
  assert (ND : NoDup order) by (apply (Permutation_NoDup (Permutation_sym P)), seq_NoDup).
  assert (In_ord : forall i, In i order <-> (i < length X)%nat) by (intros i; split; intros H; [apply (Permutation_in _ P), in_seq in H; lia | apply (Permutation_in _ (Permutation_sym P)), in_seq; lia]).
  assert (Sp : order = c ++ skipn (Nat.min (length X) num) order) by (symmetry; apply firstn_skipn).
  assert (Sub : forall i, In i c -> In i order) by (intros i Hi; rewrite Sp; apply in_or_app; auto).
  destruct (mapM_get X c (fun i Hi => proj1 (In_ord i) (Sub i Hi))) as (ys & E & Ly & F). exists ys. split; [exact E|]. exists c.
  split. { rewrite Sp in ND. now apply NoDup_front in ND. }
  split; [unfold c; rewrite firstn_length; lia|]. split; [reflexivity|]. split.
  - assert (G : forall (l : list nat) (zs : list A), length zs = length l -> (forall k i, nth_error l k = Some i -> exists y, nth_error zs k = Some y /\ nth_error X i = Some y) ->
      Forall2 (fun i y => nth_error X i = Some y) l zs).
    { induction l as [|i l IH]; intros [|z zs] Lz G; try discriminate; constructor.
      - destruct (G 0%nat i eq_refl) as (y & Ey & Ei). cbn in Ey. congruence.
      - apply IH; [cbn in Lz; lia|]. intros k j Ek. apply (G (Datatypes.S k) j Ek). }
    apply G; assumption.
  - intros i j a b Hi Hj Nj Ha Hb.
    assert (Hj' : In j (skipn (Nat.min (length X) num) order)) by (apply In_ord in Hj; rewrite Sp in Hj; apply in_app_or in Hj; tauto).
    apply In_nth_error in Hi, Hj'. destruct Hi as [p Ep]. destruct Hj' as [q Eq].
    apply (S p (length c + q)%nat i j a b); [idtac | rewrite Sp, nth_error_app1; [exact Ep | apply nth_error_Some; congruence]
      | rewrite Sp, nth_error_app2 by lia; replace (length c + q - length c)%nat with q by lia; exact Eq | exact Ha | exact Hb].
    assert (p < length c)%nat by (apply nth_error_Some; congruence). lia.
Qed.

(** ---- the pick *)
Lemma pick_from_spec : forall {A} (pts : list (A * float)) (b : A * float),
  (nan_p (snd b) = true -> pick_from b pts = b) /\
  (nan_p (snd b) = false -> nan_p (snd (pick_from b pts)) = false /\ In (pick_from b pts) (b :: pts) /\ forall p, In p (b :: pts) -> flt (snd p) (snd (pick_from b pts)) = false).
Proof.
  intros A. induction pts as [|p pts IH]; intros b; cbn [pick_from].
  - split; [auto|]. intros H. split; [exact H|]. split; [left; reflexivity|]. intros p [<-|[]]. apply flt_of_le; auto. lra.
  - split.
    + intros H. rewrite (flt_nan_r _ _ H). now apply IH.
    + intros H. destruct (flt (snd p) (snd b)) eqn:E.
      * assert (Np : nan_p (snd p) = false) by (destruct (nan_p (snd p)) eqn:K; [rewrite (flt_nan_l _ _ K) in E; discriminate | reflexivity]).
        destruct (proj2 (IH p) Np) as (I1 & I2 & I3). split; [exact I1|]. split; [right; exact I2|]. intros r [<-|Hr]; [|exact (I3 r Hr)].
        pose proof (I3 p (or_introl eq_refl)) as K. apply flt_of_le; auto. apply flt_true_le in E; auto. apply flt_false_le in K; auto. lra.
      * destruct (proj2 (IH b) H) as (I1 & I2 & I3). split; [exact I1|]. split; [destruct I2 as [I2|I2]; [left; exact I2 | right; right; exact I2]|].
        intros r [<-|[<-|Hr]]; [apply I3; left; reflexivity | | apply I3; right; exact Hr].
        destruct (nan_p (snd p)) eqn:K; [now apply flt_nan_l|]. pose proof (I3 b (or_introl eq_refl)) as W.
        apply flt_of_le; auto. apply flt_false_le in E; auto. apply flt_false_le in W; auto. lra.
Qed.
Lemma mapMi_length : forall {A B} (f : nat -> A -> res B) l k ys, mapMi f k l = Ok ys -> Forall2 (fun x y => exists j, f j x = Ok y) l ys.
Proof.
  intros A B f. induction l as [|x l IH]; intros k ys H; cbn [mapMi] in H.
  - assert (ys = []) by congruence. subst. constructor.
  - destruct (f k x) as [y|] eqn:E; [|discriminate]. cbn in H. destruct (mapMi f (S k) l) as [zs|] eqn:E2; [|discriminate]. cbn in H.
    assert (ys = y :: zs) by congruence. subst. constructor; [exists k; exact E | eapply IH; exact E2].
Qed.

(** ---- the suggestion is no worse than any candidate *)
Lemma suggestion : forall {A} (X : list A) score argsort local x v, (forall l, sorts l (argsort l)) -> never_worse score local ->
  (exists c, In c X /\ nan_p (score c) = false) -> optimize_f X score argsort local = Ok (x, v) ->
  v = score x /\ nan_p v = false /\ forall c, In c X -> flt (score c) v = false.
Proof.
  intros A X score argsort local x v Hs Hl (c0 & Hc0 & Nc0) H. unfold optimize_f in H.
  destruct (anchors_spec X (map score X) (argsort (map score X)) 5 (map_length _ _) (Hs _)) as (ys & E & ch & ND & Lc & Ec & F & B).
  rewrite E in H. cbn in H. destruct (mapMi _ 0 ys) as [pts|] eqn:Ep in H; [|discriminate]. cbn in H. apply mapMi_length in Ep.
  destruct X as [|x1 X']; [destruct Hc0|]. set (X := x1 :: X') in *.
  destruct ch as [|i ch]; [cbn in Lc; lia|]. inversion F as [|i' y1 ch' ys' Fi Ft]; subst. inversion Ep as [|y' p1 ys'' pts' (j & Ej) Ept]; subst.
  (* the first start has a value that nothing is below *)
  assert (Best : nan_p (score y1) = false /\ forall c, In c X -> flt (score c) (score y1) = false).
  { assert (W : forall c, In c X -> before (score y1) (score c) \/ score c = score y1).
    { intros c Hc. apply In_nth_error in Hc. destruct Hc as [k Ek]. assert (Si : nth_error (map score X) i = Some (score y1)) by (rewrite nth_error_map, Fi; reflexivity).
      assert (Sk : nth_error (map score X) k = Some (score c)) by (rewrite nth_error_map, Ek; reflexivity).
      destruct (Nat.eq_dec i k) as [->|Nik]; [right; congruence|]. left. destruct (Hs (map score X)) as [P S]. destruct (argsort (map score X)) as [|o os] eqn:Eo.
      { rewrite firstn_nil in Ec. discriminate. }
      assert (o = i) by (change (Nat.min (length X) 5) with (Datatypes.S (Nat.min (length X') 4)) in Ec; cbn [firstn] in Ec; congruence). subst o.
      assert (Hk : In k os).
      { assert (K : In k (i :: os)) by (apply (Permutation_in _ (Permutation_sym P)), in_seq; rewrite map_length; split; [lia|]; rewrite Nat.add_0_l; apply nth_error_Some; congruence).
        destruct K as [K|K]; [contradiction | exact K]. }
      apply In_nth_error in Hk. destruct Hk as [q Eq]. apply (S 0%nat (Datatypes.S q) i k); auto. lia. }
    assert (N1 : nan_p (score y1) = false) by (destruct (W c0 Hc0) as [[W1|[W1 _]]|W1]; congruence). split; [exact N1|].
    intros c Hc. destruct (W c Hc) as [[W1|[_ W1]]|W1]; [now apply flt_nan_l | exact W1 | rewrite W1; apply flt_of_le; auto; lra]. }
  destruct Best as [N1 Best]. destruct (local j y1) as [z1|] eqn:Ez; [|discriminate]. cbn in Ej. assert (p1 = (z1, score z1)) by congruence. subst p1.
  destruct (Hl j y1 z1 Ez N1) as [Nz Lz]. cbn [pick_f] in H.
  destruct (proj2 (pick_from_spec pts' (z1, score z1)) Nz) as (Q1 & Q2 & Q3).
  assert (Er : pick_from (z1, score z1) pts' = (x, v)) by congruence. rewrite Er in *. cbn [snd] in *.
  assert (Vx : v = score x).
  { destruct Q2 as [Q2|Q2]; [congruence|]. clear - Ept Q2. revert Q2. induction Ept as [|a b la lb (k & K) _ IH]; intros [].
    - subst b. destruct (local k a); cbn in K; congruence.
    - auto. }
  split; [exact Vx|]. split; [exact Q1|]. intros c Hc. destruct (nan_p (score c)) eqn:Nc; [now apply flt_nan_l|].
  pose proof (Best c Hc) as B1. pose proof (Q3 _ (or_introl eq_refl)) as B2. cbn [snd] in B2.
  apply flt_of_le; auto. apply flt_false_le in B1, B2, Lz; auto. lra.
Qed.

(** ---- with EI *)
Lemma infeasible_value : forall f c, number c -> 0 < val c -> nan_p (weighted_f f (indicator_of false) c) = false ->
  number (weighted_f f (indicator_of false) c) /\ val (weighted_f f (indicator_of false) c) = 0.
Proof.
  intros f c Hc Pc H. destruct (is_finite f) eqn:F; [apply weighted_out; [exact F | lra]|]. exfalso. unfold weighted_f in H.
  assert (N : nan_p (fmul f (indicator_of false)) = true) by (destruct f as [?|[|]| |? ? ? ?]; try discriminate; reflexivity).
  destruct (fmul f (indicator_of false)); try discriminate.
Qed.
Lemma feasible_suggestion : forall {A} L par fmin (B : beliefs A) X argsort local x v, libm_like L -> number par -> number fmin -> sound B ->
  (forall l, sorts l (argsort l)) -> never_worse (ei_score L par fmin B) local ->
  (exists c, In c X /\ promising L par fmin B c) -> optimize_f X (ei_score L par fmin B) argsort local = Ok (x, v) ->
  b_feasible B x = true /\ flt v f0 = true.
Proof.
  intros A L par fmin B X argsort local x v HL Hp Hf HB Hs Hl (c & Hc & P1 & P2 & P3 & P4 & P5) H.
  destruct (HB c) as (M1 & M2 & M3 & M4).
  pose proof (ei_prefers L par fmin _ _ _ HL Hp Hf M1 M2 M3 P3 P4 P5 (conj M4 P2)) as Pr.
  destruct (weighted_out _ (b_cost B c) P3 ltac:(lra)) as [O1 O2].
  assert (Sc : nan_p (ei_score L par fmin B c) = false) by (unfold ei_score; rewrite P1; apply weighted_in; [exact P3 | lra]).
  assert (Neg : place (ei_score L par fmin B c) < 0).
  { unfold ei_score in *. rewrite P1 in *. apply flt_true_le in Pr; [|exact Sc | now apply not_nan]. unfold place in Pr at 2. rewrite O1, O2 in Pr. exact Pr. }
  destruct (suggestion X _ argsort local x v Hs Hl (ex_intro _ c (conj Hc Sc)) H) as (V & N & Bst).
  specialize (Bst c Hc). apply flt_false_le in Bst; [|exact Sc | exact N]. destruct f0_ok as [Z0 Z1].
  split.
  - destruct (b_feasible B x) eqn:Fx; [reflexivity|]. exfalso. destruct (HB x) as (M1' & M2' & M3' & M4'). subst v. unfold ei_score in Bst at 1, N. rewrite Fx in Bst, N.
    destruct (infeasible_value _ _ M3' M4' N) as [K1 K2]. unfold place at 1 in Bst. rewrite K1, K2 in Bst. lra.
  - apply flt_of_lt; [exact N | reflexivity|]. replace (place f0) with 0 by (unfold place; rewrite Z0; symmetry; exact Z1). lra.
Qed.
