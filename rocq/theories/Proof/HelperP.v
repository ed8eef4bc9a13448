(** The Lipschitz constant of local penalization and the random forest. *)
From Coq Require Import Reals Lra Psatz List Lia Bool Permutation.
From Coquelicot Require Import Coquelicot.
From Verif.Model Require Import Py AcqR Util Helpers.
From Verif.Spec Require Import RSpec UtilSpec HelperSpec.
From Verif.Proof Require Import UtilP.
Import ListNotations.
Local Open Scope R_scope.

Lemma argmin_from_spec : forall l best v i pre, length pre = i -> nth_error pre best = Some v -> (forall y, In y pre -> v <= y) ->
  exists m, nth_error (pre ++ l) (argmin_from best v i l) = Some m /\ forall y, In y (pre ++ l) -> m <= y.
Proof.
  induction l as [|a l IH]; intros best v i pre LE N H; cbn [argmin_from].
  - rewrite app_nil_r. eauto.
  - assert (B : (best < length pre)%nat) by (apply nth_error_Some; congruence).
    destruct (Rlt_dec a v) as [La|La]; (destruct (IH (if Rlt_dec a v then i else best) (if Rlt_dec a v then a else v) (S i) (pre ++ [a])) as (m & A1 & A2);
      destruct (Rlt_dec a v); try contradiction; try (rewrite app_length; cbn; lia)).
    + rewrite nth_error_app2 by lia. rewrite LE, Nat.sub_diag. reflexivity.
    + intros y I. apply in_app_or in I as [I|[<-|[]]]; [|lra]. specialize (H y I). lra.
    + rewrite <- app_assoc in A1, A2. eauto.
    + rewrite nth_error_app1 by lia. exact N.
    + intros y I. apply in_app_or in I as [I|[<-|[]]]; [auto|lra].
    + rewrite <- app_assoc in A1, A2. eauto.
Qed.
Lemma argminR_spec l i : argminR l = Ok i -> exists m, nth_error l i = Some m /\ forall y, In y l -> m <= y.
Proof.
  destruct l as [|a l]; [discriminate|]. intros [= <-]. apply (argmin_from_spec l 0 a 1 [a]); auto. intros y [<-|[]]. lra.
Qed.
Lemma argminR_total l : l <> [] -> exists i, argminR l = Ok i.
Proof. destruct l; [congruence|]. intros _. eexists. reflexivity. Qed.

Lemma samples_length u b n : length (samples_multidimensional_uniform u b n) = n.
Proof. unfold samples_multidimensional_uniform. now rewrite map_length, seq_length. Qed.
Lemma samples_in_box u b n : (forall i k, 0 <= u i k <= 1) -> List.Forall (fun p => fst p <= snd p) b -> List.Forall (in_box b) (samples_multidimensional_uniform u b n).
Proof.
  intros U F. apply List.Forall_forall. intros x I. apply in_map_iff in I as (i & <- & _). unfold in_box. generalize 0%nat. clear -U F.
  induction F as [|p b Hp F IH]; intros k; cbn [length seq combine map]; [constructor|]. constructor; [|apply IH]. cbn [fst snd].
  destruct (U i k). nra.
Qed.

Lemma df_norm grad x : df grad x = - norm2 (grad x). Proof. reflexivity. Qed.
Lemma norm2_nonneg v : 0 <= norm2 v. Proof. apply sqrt_pos. Qed.
Lemma e7 : 0 < / 10 ^ 7. Proof. apply Rinv_0_lt_compat. lra. Qed.
Lemma estimate_ge f : / 10 ^ 7 <= estimate_L f /\ - f <= Rmax (estimate_L f) (/ 10 ^ 7) /\ estimate_L f <= Rmax (- f) 10.
Proof.
  unfold estimate_L. cbv zeta. assert (/ 10 ^ 7 < 10). { apply Rmult_lt_reg_r with (10 ^ 7); [lra|]. rewrite Rinv_l by lra. lra. }
  destruct (Rlt_dec (- f) (/ 10 ^ 7)); repeat split; try lra.
  - apply Rle_trans with (/ 10 ^ 7); [lra|apply Rmax_r].
  - apply Rmax_r.
  - apply Rmax_l.
  - apply Rmax_l.
Qed.
Lemma estimate_above f : - f <= estimate_L f.
Proof.
  unfold estimate_L. cbv zeta. assert (/ 10 ^ 7 < 10). { apply Rmult_lt_reg_r with (10 ^ 7); [lra|]. rewrite Rinv_l by lra. lra. }
  destruct (Rlt_dec (- f) (/ 10 ^ 7)); lra.
Qed.

Section Lip.
Variables (grad : pt -> pt) (solve : (pt -> R) -> pt -> list (R * R) -> R) (u : nat -> nat -> R) (bounds : list (R * R)) (X : list pt).
Lemma lipschitz_ok L : lipschitz grad solve u bounds X = Ok L -> exists x0, In x0 (samples_multidimensional_uniform u bounds 500 ++ X) /\
  L = estimate_L (solve (df grad) x0 bounds) /\ forall s, In s (samples_multidimensional_uniform u bounds 500 ++ X) -> df grad x0 <= df grad s.
Proof.
  unfold lipschitz. cbv zeta. set (S := samples_multidimensional_uniform u bounds 500 ++ X).
  destruct (argminR (map (df grad) S)) as [i|e] eqn:A; [|discriminate]. cbn [bind].
  apply argminR_spec in A as (m & N & H). rewrite nth_error_map in N. destruct (nth_error S i) as [x0|] eqn:N0; [|discriminate].
  injection N as <-. intros [= <-]. exists x0. split; [eapply nth_error_In; eauto|]. split; auto. intros s I. apply H. apply in_map_iff. eauto.
Qed.
Lemma lipschitz_total : exists L, lipschitz grad solve u bounds X = Ok L.
Proof.
  unfold lipschitz. cbv zeta. set (S := samples_multidimensional_uniform u bounds 500 ++ X).
  destruct (argminR_total (map (df grad) S)) as (i & A).
  { intro E. apply (f_equal (@length R)) in E. unfold S in E. rewrite map_length, app_length, samples_length in E. cbn [length] in E. lia. }
  rewrite A. cbn [bind]. apply argminR_spec in A as (m & N & _). rewrite nth_error_map in N. destruct (nth_error S i); [eauto|discriminate].
Qed.
Lemma lipschitz_min L : lipschitz grad solve u bounds X = Ok L -> / 10 ^ 7 <= L.
Proof. intros H. apply lipschitz_ok in H as (x0 & _ & -> & _). apply estimate_ge. Qed.
Hypothesis PR : proper bounds u X.
Lemma start_in_box x0 : In x0 (samples_multidimensional_uniform u bounds 500 ++ X) -> in_box bounds x0.
Proof.
  destruct PR as (P1 & P2 & P3). intros I. apply in_app_or in I as [I|I].
  - pose proof (samples_in_box u bounds 500 P2 P1) as F. rewrite List.Forall_forall in F. auto.
  - rewrite List.Forall_forall in P3. auto.
Qed.
Lemma lipschitz_samples L s : descends solve (df grad) bounds -> lipschitz grad solve u bounds X = Ok L ->
  In s (samples_multidimensional_uniform u bounds 500 ++ X) -> norm2 (grad s) <= L.
Proof.
  intros D H I. apply lipschitz_ok in H as (x0 & I0 & -> & M). specialize (M s I). specialize (D x0 (start_in_box x0 I0)). rewrite !df_norm in *.
  pose proof (estimate_above (solve (df grad) x0 bounds)). lra.
Qed.
Lemma lipschitz_bounded L B : attains solve (df grad) bounds -> (forall x, in_box bounds x -> norm2 (grad x) <= B) -> lipschitz grad solve u bounds X = Ok L -> L <= Rmax B 10.
Proof.
  intros A HB H. apply lipschitz_ok in H as (x0 & I0 & -> & _). destruct (A x0 (start_in_box x0 I0)) as (x & I & ->). destruct (estimate_ge (df grad x)) as (_ & _ & E).
  rewrite df_norm in *. specialize (HB x I). rewrite Ropp_involutive in E. eapply Rle_trans; [exact E|]. apply Rmax_lub; [eapply Rle_trans; [exact HB|apply Rmax_l]|apply Rmax_r].
Qed.
Lemma lipschitz_box L x : minimizes solve (df grad) bounds -> lipschitz grad solve u bounds X = Ok L -> in_box bounds x -> norm2 (grad x) <= L.
Proof.
  intros D H I. apply lipschitz_ok in H as (x0 & I0 & -> & _). specialize (D x0 x (start_in_box x0 I0) I). rewrite !df_norm in *.
  pose proof (estimate_above (solve (df grad) x0 bounds)). lra.
Qed.
End Lip.

(** ---- from a bound of the gradient to a Lipschitz constant ---- *)
Lemma inner_sq_nonneg : forall v, 0 <= sumR (map (fun d => d * d) v).
Proof. unfold sumR. induction v as [|a v IH]; cbn; [lra|]. nra. Qed.
Lemma inner_lin a : forall v w, length v = length w ->
  sumR (map (fun p => (fst p + a * snd p) * (fst p + a * snd p)) (combine v w)) =
  sumR (map (fun d => d * d) v) + 2 * a * inner v w + a * a * sumR (map (fun d => d * d) w).
Proof.
  unfold inner, sumR. induction v as [|x v IH]; intros [|y w] LE; try discriminate; cbn; [ring|]. cbn in LE. rewrite IH by lia. ring.
Qed.
Lemma cauchy v w : length v = length w -> Rabs (inner v w) <= norm2 v * norm2 w.
Proof.
  intros LE. set (A := sumR (map (fun d => d * d) v)). set (B := sumR (map (fun d => d * d) w)). set (C := inner v w).
  assert (PA : 0 <= A) by apply inner_sq_nonneg. assert (PB : 0 <= B) by apply inner_sq_nonneg.
  assert (Q : forall a, 0 <= A + 2 * a * C + a * a * B).
  { intros a. unfold A, B, C. rewrite <- inner_lin by auto.
    assert (P : forall l : list (R * R), 0 <= sumR (map (fun p => (fst p + a * snd p) * (fst p + a * snd p)) l)).
    { unfold sumR. induction l as [|p l IH]; cbn [map fold_right]; [lra|]. pose proof (Rle_0_sqr (fst p + a * snd p)) as SQ. unfold Rsqr in SQ. lra. }
    apply P. }
  assert (D : C * C <= A * B).
  { destruct (Req_dec B 0) as [Z|NZ].
    - assert (C = 0). { rewrite Z in Q. destruct (Req_dec C 0) as [|NC]; [auto|]. specialize (Q (- (A + 1) / (2 * C))). 
        replace (A + 2 * (- (A + 1) / (2 * C)) * C + - (A + 1) / (2 * C) * (- (A + 1) / (2 * C)) * 0) with (-1) in Q by (field; auto). lra. }
      rewrite H, Z. lra.
    - specialize (Q (- C / B)). replace (A + 2 * (- C / B) * C + - C / B * (- C / B) * B) with (A - C * C / B) in Q by (field; auto).
      assert (C * C / B <= A) by lra. apply Rmult_le_compat_r with (r := B) in H; [|lra]. unfold Rdiv in H. rewrite Rmult_assoc, Rinv_l in H by auto. lra. }
  unfold norm2. fold A B. rewrite <- sqrt_mult by auto. rewrite <- sqrt_Rsqr_abs. apply sqrt_le_1_alt. exact D.
Qed.

Lemma move_length x d t : length x = length d -> length (move x d t) = length x.
Proof. intros H. unfold move. rewrite map_length, combine_length. lia. Qed.
Lemma move_add : forall x d t s, length x = length d -> move (move x d t) d s = move x d (t + s).
Proof.
  unfold move. induction x as [|a x IH]; intros [|b d] t s LE; try discriminate; [reflexivity|]. cbn in *. f_equal; [ring|]. apply IH. lia.
Qed.
Definition diff (x y : pt) : pt := map (fun p => snd p - fst p) (combine x y).
Lemma diff_length x y : length x = length y -> length (diff x y) = length x.
Proof. intros H. unfold diff. rewrite map_length, combine_length. lia. Qed.
Lemma move_ends : forall x y, length x = length y -> move x (diff x y) 0 = x /\ move x (diff x y) 1 = y.
Proof.
  unfold move, diff. induction x as [|a x IH]; intros [|b y] LE; try discriminate; [auto|]. cbn in *. destruct (IH y) as (A & B); [lia|].
  rewrite A, B. split; f_equal; ring.
Qed.
Lemma diff_norm x y : length x = length y -> norm2 (diff x y) = distance x y.
Proof.
  intros _. unfold norm2, distance, diff. rewrite map_map. do 2 f_equal. apply map_ext. intros [a b]. cbn. ring.
Qed.
Lemma box_segment bounds : forall x y t, in_box bounds x -> in_box bounds y -> 0 <= t <= 1 -> in_box bounds (move x (diff x y) t).
Proof.
  unfold in_box. intros x y t HX. revert y. induction HX as [|b v bs x Hv HX IH]; intros y HY T; inversion HY; subst; [constructor|].
  unfold move, diff. cbn. constructor; [|apply (IH l'); auto]. cbn [fst snd]. destruct Hv, H1. split; nra.
Qed.
Lemma box_length bounds x : in_box bounds x -> length x = length bounds.
Proof. unfold in_box. induction 1; cbn; auto. Qed.

Lemma gradient_lipschitz bounds f grad L : (forall x, in_box bounds x -> derivative_at f x (grad x)) -> (forall x, in_box bounds x -> norm2 (grad x) <= L) ->
  lipschitz_on bounds f L.
Proof.
  intros D H x y HX HY. assert (LE : length x = length y) by (rewrite (box_length _ _ HX), (box_length _ _ HY); auto).
  set (d := diff x y). assert (Ld : length d = length x) by (apply diff_length; auto). destruct (move_ends x y LE) as (E0 & E1). fold d in E0, E1.
  set (phi := fun t => f (move x d t)).
  assert (DP : forall t, 0 <= t <= 1 -> is_derive phi t (inner (grad (move x d t)) d)).
  { intros t T. destruct (D (move x d t)) as (_ & DD); [apply box_segment; auto|]. specialize (DD d). rewrite move_length in DD by auto. specialize (DD Ld).
    assert (EQ : forall s, phi s = (fun r => f (move (move x d t) d r)) (s - t)).
    { intros s. unfold phi. rewrite move_add by auto. f_equal. f_equal. ring. }
    apply (is_derive_ext (fun s => (fun r => f (move (move x d t) d r)) (s - t))); [intros s; symmetry; apply EQ|].
    replace (inner (grad (move x d t)) d) with (1 * inner (grad (move x d t)) d) by ring.
    apply (is_derive_comp (fun r => f (move (move x d t) d r)) (fun s => s - t)).
    - replace (t - t) with 0 by ring. exact DD.
    - auto_derive; [auto|ring]. }
  destruct (MVT_gen phi 0 1 (fun t => inner (grad (move x d t)) d)) as (c & (C1 & C2) & C3).
  - intros t T. rewrite Rmin_left, Rmax_right in T by lra. apply DP. lra.
  - intros t T. rewrite Rmin_left, Rmax_right in T by lra. apply derivable_continuous_pt. exists (inner (grad (move x d t)) d). apply is_derive_Reals. apply DP. lra.
  - rewrite Rmin_left in C1 by lra. rewrite Rmax_right in C2 by lra. unfold phi in C3. rewrite E0, E1 in C3.
    replace (f x - f y) with (- (inner (grad (move x d c)) d)) by lra. rewrite Rabs_Ropp.
    assert (BX : in_box bounds (move x d c)) by (apply box_segment; auto).
    destruct (D _ BX) as (LG & _). rewrite move_length in LG by auto.
    eapply Rle_trans; [apply cauchy; congruence|]. rewrite <- (diff_norm x y LE). fold d. apply Rmult_le_compat_r; [apply norm2_nonneg|]. auto.
Qed.

(** ---- the random forest ---- *)
Lemma mean_between l lo hi : l <> [] -> (forall y, In y l -> lo <= y <= hi) -> lo <= mean l <= hi.
Proof.
  intros N H. unfold mean. pose proof (INR_pos l N) as P.
  assert (T : lo * INR (length l) <= total l <= hi * INR (length l)).
  { clear N P. unfold total. induction l as [|a l IH]; [cbn; lra|]. cbn [fold_right length]. rewrite S_INR.
    destruct (H a) as (? & ?); [now left|]. destruct IH; [intros; apply H; now right|]. lra. }
  split; apply Rmult_le_reg_r with (INR (length l)); auto; unfold Rdiv; rewrite Rmult_assoc, Rinv_l by lra; lra.
Qed.
Lemma std_zero_iff l : l <> [] -> std l = 0 <-> constant l.
Proof.
  intros N. split; [|now apply std_const]. intros E a b A B. destruct (Req_dec a b) as [|NE]; [auto|]. exfalso.
  assert (0 < std l); [|lra]. apply std_pos; auto.
Qed.
Lemma total_perm l l' : Permutation l l' -> total l = total l'.
Proof. unfold total. induction 1; cbn; try lra. Qed.
Lemma mean_perm l l' : Permutation l l' -> mean l = mean l'.
Proof. intros P. unfold mean. now rewrite (total_perm _ _ P), (Permutation_length P). Qed.
Lemma std_perm l l' : Permutation l l' -> std l = std l'.
Proof. intros P. unfold std. rewrite (mean_perm _ _ P). f_equal. apply mean_perm. now apply Permutation_map. Qed.
(** Popoviciu: the deviation is at most half the range. *)
Lemma total_add {A} (f g : A -> R) l : total (map (fun y => f y + g y) l) = total (map f l) + total (map g l).
Proof. unfold total. induction l as [|a l IH]; cbn; [lra|]. rewrite IH. ring. Qed.
Lemma std_range l lo hi : l <> [] -> (forall y, In y l -> lo <= y <= hi) -> std l <= (hi - lo) / 2.
Proof.
  intros N H. pose proof (INR_pos l N) as P. assert (LH : lo <= hi). { destruct l as [|a l]; [congruence|]. destruct (H a); [now left|]. lra. }
  unfold std. set (m := mean l). set (c := (lo + hi) / 2).
  assert (E : mean (map (fun y => (y - m) * (y - m)) l) = mean (map (fun y => (y - c) * (y - c)) l) - (m - c) * (m - c)).
  { unfold mean at 1 2. rewrite !map_length. assert (TM : total l = m * INR (length l)) by (unfold m, mean; field; lra).
    assert (TE : total (map (fun y => (y - m) * (y - m)) l) = total (map (fun y => (y - c) * (y - c)) l) - INR (length l) * ((m - c) * (m - c))).
    { assert (G : forall k, total (map (fun y => (y - k) * (y - k)) l) = total (map (fun y => y * y) l) - 2 * k * total l + INR (length l) * (k * k)).
      { intros k. clear. unfold total. induction l as [|a l IH]; [cbn; ring|]. cbn [map fold_right length]. rewrite IH, S_INR. ring. }
      rewrite (G m), (G c), TM. ring. }
    rewrite TE. field. lra. }
  assert (B : mean (map (fun y => (y - c) * (y - c)) l) <= ((hi - lo) / 2) * ((hi - lo) / 2)).
  { apply (mean_between _ 0); [destruct l; [congruence|discriminate]|]. intros y I. apply in_map_iff in I as (a & <- & I). destruct (H a I). unfold c. assert (Q : 0 <= (a - lo) * (hi - a)) by (apply Rmult_le_pos; lra). split; [apply Rle_0_sqr|]. nra. }
  replace ((hi - lo) / 2) with (sqrt (((hi - lo) / 2) * ((hi - lo) / 2))) by (apply sqrt_square; lra).
  apply sqrt_le_1_alt. rewrite E. pose proof (Rle_0_sqr (m - c)). unfold Rsqr in *. lra.
Qed.
Lemma lmin_spec l : l <> [] -> In (Util.lmin l) l /\ forall y, In y l -> Util.lmin l <= y.
Proof.
  destruct l as [|a l]; [congruence|]. intros _. cbn [Util.lmin]. destruct (fold_min_le l a) as (A & B). split.
  - destruct (fold_min_in l a) as [->|I]; [now left|now right].
  - intros y [<-|I]; auto.
Qed.
