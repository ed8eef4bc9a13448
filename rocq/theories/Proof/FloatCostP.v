(** Evaluation times in double precision: proofs. *)
From Coq Require Import List ZArith Bool Reals Lra Lia Permutation SpecFloat.
From Flocq Require Import Core IEEE754.BinarySingleNaN.
From Verif.Model Require Import Py Float FloatStop FloatCons FloatCost.
From Verif.Spec Require Import FloatSpec FloatCostSpec.
From Verif.Proof Require Import FloatP FloatStopP FloatConsP.
Import ListNotations.
Local Open Scope R_scope.

Lemma diff_zero : forall a b, number a -> number b -> number (fsub a b) -> (val (fsub a b) = 0 <-> val a = val b).
Proof.
  intros a b Ha Hb F. rewrite (fsub_finite a b Ha Hb F). split; intros H.
  - apply sub_zero in H; [lra| |]; apply F64_val.
  - replace (val a - val b) with 0 by lra. apply rnd_0.
Qed.
Lemma diff_signs : forall a b, number a -> number b -> number (fsub a b) ->
  (0 < val (fsub a b) <-> val b < val a) /\ (val (fsub a b) < 0 <-> val a < val b).
Proof.
  intros a b Ha Hb F. pose proof (diff_zero a b Ha Hb F) as Z. pose proof (diff_sign a b Ha Hb) as S. rewrite (fle0 _ F) in S.
  destruct (Rtotal_order (val a) (val b)) as [L|[L|L]]; destruct (Rtotal_order (val (fsub a b)) 0) as [M|[M|M]]; split; split; intros; try lra;
    exfalso; destruct Z, S; intuition lra.
Qed.

Lemma updated_from : forall lg (ups : list (list (list float) * list (float * float))) n X C, updated lg (mk_costs (S n) (Some (X, C))) ups =
  Ok (mk_costs (S n + length ups) (Some (X ++ concat (map fst ups), C ++ concat (map (fun u => map lg (times (snd u))) ups)))).
Proof.
  intros lg. induction ups as [|u ups IH]; intros n X C; cbn [updated map length].
  - cbn [concat]. now rewrite !app_nil_r, Nat.add_0_r.
  - cbn [update_costs num_updates cost_data].
    cbn [concat]. rewrite (IH (S n)). f_equal. f_equal; [lia | now rewrite !app_assoc].
Qed.
Lemma updated_fresh : forall lg (ups : list (list (list float) * list (float * float))), ups <> [] -> updated lg fresh_costs ups =
  Ok (mk_costs (length ups) (Some (concat (map fst ups), concat (map (fun u => map lg (times (snd u))) ups)))).
Proof.
  intros lg [|u ups] H; [congruence|]. exact (updated_from lg ups 0 (fst u) (map lg (times (snd u)))).
Qed.
Lemma times_concat : forall (lg : float -> float) (ups : list (list (list float) * list (float * float))),
  concat (map (fun u => map lg (times (snd u))) ups) = map (fun r => lg (fsub (snd r) (fst r))) (concat (map snd ups)).
Proof.
  intros lg ups. rewrite concat_map, map_map. f_equal. apply map_ext. intros u. unfold times. now rewrite map_map.
Qed.
Lemma entry : forall lg s e, log_like lg -> readable (s, e) ->
  (number (lg (fsub e s)) <-> val s < val e) /\ (val s = val e -> lg (fsub e s) = B754_infinity true) /\ (val e < val s -> nan_p (lg (fsub e s)) = true).
Proof.
  intros lg s e Hl [Hs [He Hd]]. cbn [fst snd] in *. destruct (Hl _ Hd) as [P [Z N]]. pose proof (diff_zero e s He Hs Hd) as D0.
  destruct (diff_signs e s He Hs Hd) as [DP DN].
  assert (Z' : val s = val e -> lg (fsub e s) = B754_infinity true) by (intros Q; apply Z, D0; congruence).
  assert (N' : val e < val s -> nan_p (lg (fsub e s)) = true) by (intros Q; apply N, DN, Q).
  split; [|split; assumption]. split.
  - intros F. destruct (Rtotal_order (val s) (val e)) as [L|[L|L]]; [exact L| |].
    + rewrite (Z' L) in F. discriminate.
    + apply N' in L. unfold number in F. destruct (lg (fsub e s)); cbn in *; discriminate.
  - intros L. apply P, DP, L.
Qed.
Lemma learned : forall lg ups, log_like lg -> ups <> [] -> (forall u r, In u ups -> In r (snd u) -> readable r) ->
  exists C, updated lg fresh_costs ups = Ok (mk_costs (length ups) (Some (concat (map fst ups), C))) /\
    length C = length (concat (map snd ups)) /\
    forall i s e, nth_error (concat (map snd ups)) i = Some (s, e) ->
      exists v, nth_error C i = Some v /\ (number v <-> val s < val e) /\ (val s = val e -> v = B754_infinity true) /\ (val e < val s -> nan_p v = true).
Proof.
  intros lg ups Hl Hne Hr. eexists. split; [apply updated_fresh, Hne|]. rewrite times_concat. split; [apply map_length|].
  intros i s e Hi. exists (lg (fsub e s)). split; [exact (map_nth_error (fun r => lg (fsub (snd r) (fst r))) i _ Hi)|].
  apply entry; [exact Hl|]. apply nth_error_In in Hi. apply in_concat in Hi. destruct Hi as [l [Hin Hl']]. apply in_map_iff in Hin.
  destruct Hin as [u [<- Hu]]. exact (Hr u (s, e) Hu Hl').
Qed.
Lemma for_good : forall lg ups more, ups <> [] -> exists C C', updated lg fresh_costs ups = Ok (mk_costs (length ups) (Some (concat (map fst ups), C))) /\
  updated lg fresh_costs (ups ++ more) = Ok (mk_costs (length (ups ++ more)) (Some (concat (map fst (ups ++ more)), C'))) /\
  forall i v, nth_error C i = Some v -> nth_error C' i = Some v.
Proof.
  intros lg ups more Hne. eexists. eexists. split; [apply updated_fresh, Hne|]. split; [apply updated_fresh; destruct ups; [congruence | discriminate]|].
  intros i v Hi. rewrite map_app, concat_app. rewrite nth_error_app1; [exact Hi|]. apply nth_error_Some. congruence.
Qed.

(** The noise *)
Definition low (x : float) : Prop := x = B754_infinity true \/ nan_p x = true.
Lemma fadd_low : forall x y, low x \/ low y -> low (fadd x y).
Proof.
  intros x y H. unfold low in *. destruct x as [s1|[|]| |s1 m1 e1 b1]; destruct y as [s2|[|]| |s2 m2 e2 b2];
    destruct H as [[H|H]|[H|H]]; try discriminate; cbn; auto.
Qed.
Lemma added_low_inf : forall l x, added l x -> In (B754_infinity true : float) l -> low x.
Proof.
  intros l x H. induction H as [|x|l r x y Hl Hr H1 IH1 H2 IH2|l r x P H IH]; intros Hin.
  - destruct Hin.
  - destruct Hin as [E|[]]. left. now symmetry.
  - apply fadd_low. apply in_app_or in Hin. destruct Hin as [Hin|Hin]; [left; now apply IH1 | right; now apply IH2].
  - apply IH. apply (Permutation_in _ (Permutation_sym P)), Hin.
Qed.
Lemma count_pos : forall n, (0 < n)%nat -> (Z.of_nat n <= 2 ^ 53)%Z -> exists m e b, of_Z (Z.of_nat n) = B754_finite false m e b.
Proof.
  intros n H0 H1. destruct (of_Z_ok (Z.of_nat n)) as [F V]; [lia|]. unfold number in F. unfold val in V.
  assert (P : 0 < IZR (Z.of_nat n)) by (apply IZR_lt; lia). generalize dependent (of_Z (Z.of_nat n)). intros f F V.
  destruct f as [s|s| |s m e b]; cbn in *; try discriminate; try lra. destruct s; [|eauto]. exfalso.
  assert (N : F2R (Float radix2 (Z.neg m) e) < 0) by (apply F2R_lt_0; reflexivity). cbn in N, V. lra.
Qed.
Lemma nan_div : forall x y : float, nan_p x = true -> nan_p (fdiv x y) = true.
Proof. intros [s|s| |s m e b] y H; try discriminate. now destruct y. Qed.
Lemma nan_mul : forall x y : float, nan_p x = true -> nan_p (fmul x y) = true.
Proof. intros [s|s| |s m e b] y H; try discriminate. now destruct y. Qed.
Lemma noise_nan : forall total C, (forall l, added l (total l)) -> (Z.of_nat (length C) <= 2 ^ 53)%Z -> In (B754_infinity true : float) C ->
  nan_p (initial_noise total C) = true.
Proof.
  intros total C Ht Hn Hin. unfold initial_noise. apply nan_mul. unfold variance. apply nan_div. eapply added_nan; [apply Ht|].
  assert (Hlen : (0 < length C)%nat) by (destruct C; [destruct Hin | cbn; lia]).
  assert (Hm : low (mean_of total C)).
  { unfold mean_of. destruct (count_pos _ Hlen Hn) as [m [e [b ->]]]. destruct (added_low_inf _ _ (Ht C) Hin) as [->|H]; [now left | right; now apply nan_div]. }
  exists (fmul (fsub (B754_infinity true) (mean_of total C)) (fsub (B754_infinity true) (mean_of total C))). split.
  - exact (in_map (fun y => let d := fsub y (mean_of total C) in fmul d d) _ _ Hin).
  - apply nan_mul. destruct Hm as [->|H]; [reflexivity|]. destruct (mean_of total C); try discriminate. reflexivity.
Qed.
