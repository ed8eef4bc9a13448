(** Lemmas about rounding, bounds and column indices. *)
From Coq Require Import String List ZArith QArith Qcanon Bool Lqa Lia.
From Verif.Model Require Import Py Space.
From Verif.Spec Require Import SpaceSpec.
From Verif.Proof Require Import Num SpaceP.
Import ListNotations.
Local Open Scope nat_scope.

Lemma dist2_refl a : dist2 a a = 0%Qc.
Proof. induction a; simpl; auto. rewrite IHa. ring. Qed.
Lemma dist2_nonneg a : forall b, (0 <= dist2 a b)%Qc.
Proof.
  induction a; intros [|y b]; simpl; try apply Qcle_refl.
  specialize (IHa b). pose proof (Qcsq_nonneg (a - y)%Qc). revert IHa H. generalize ((a - y) * (a - y))%Qc. intros. qclra.
Qed.
Lemma Qcsq_zero (a : Qc) : (a * a <= 0)%Qc -> a = 0%Qc.
Proof. intro H. qc2q. nra. Qed.
Lemma dist2_zero a : forall b, length a = length b -> (dist2 a b <= 0)%Qc -> a = b.
Proof.
  induction a; intros [|y b]; simpl; try discriminate; auto. intros [= L] H.
  pose proof (dist2_nonneg a0 b). pose proof (Qcsq_nonneg (a - y)%Qc).
  assert ((a - y) = 0)%Qc. { apply Qcsq_zero. revert H H0 H1. generalize ((a - y) * (a - y))%Qc. intros. qclra. }
  f_equal. qclra. apply IHa; auto. revert H H0 H1. generalize ((a - y) * (a - y))%Qc. intros. qclra.
Qed.
Lemma dist2_app a : forall b c d, length a = length b -> dist2 (a ++ c) (b ++ d) = (dist2 a b + dist2 c d)%Qc.
Proof.
  induction a; intros [|y b] c d; simpl; try discriminate.
  - intros _. ring.
  - intros [= L]. rewrite IHa by auto. ring.
Qed.
Lemma dist2_sym a : forall b, dist2 a b = dist2 b a.
Proof. induction a; intros [|y b]; simpl; auto. rewrite IHa. ring. Qed.

Lemma valid_block_width k b : wf_kind k -> valid_block k b -> length b = width k.
Proof.
  destruct k; simpl; intros W H.
  - destruct H as (x & -> & _); auto.
  - destruct H as (x & -> & _); auto.
  - destruct W as (_ & NE & W). destruct arms as [|a arms]; [congruence|]. apply W; simpl; auto.
  - destruct H as (i & H & _); auto.
Qed.

(** absolute values versus squares *)
Lemma qabs_lt_sq a b : qclt (qabs a) (qabs b) = true <-> (a * a < b * b)%Qc.
Proof.
  rewrite qclt_spec. unfold qabs.
  destruct (qclt a q0) eqn:E; destruct (qclt b q0) eqn:F; qcases; split; intro H; qc2q; nra.
Qed.
Lemma round_disc_spec vals v : forall first,
  let r := round_disc vals v first in
  (r = first \/ In r vals) /\ ((r - v) * (r - v) <= (first - v) * (first - v))%Qc /\
  forall d, In d vals -> ((r - v) * (r - v) <= (d - v) * (d - v))%Qc.
Proof.
  unfold round_disc. induction vals as [|d t IH]; intros first; cbn [fold_left].
  - repeat split; auto; [apply Qcle_refl | intros d []].
  - destruct (qclt (qabs (d - v)%Qc) (qabs (first - v)%Qc)) eqn:E.
    + destruct (IH d) as (A & B & C). apply qabs_lt_sq in E.
      split; [destruct A as [A|A]; [right; left; auto | right; right; auto]|].
      split; [eapply Qcle_trans; [exact B|apply Qclt_le_weak; auto]|].
      intros x [<-|Hx]; auto.
    + destruct (IH first) as (A & B & C).
      assert (G : ((first - v) * (first - v) <= (d - v) * (d - v))%Qc).
      { destruct (Qclt_le_dec ((d - v) * (d - v)) ((first - v) * (first - v)))%Qc as [L|]; auto.
        apply qabs_lt_sq in L. congruence. }
      split; [destruct A as [A|A]; [left; auto | right; right; auto]|].
      split; auto. intros x [<-|Hx]; auto. eapply Qcle_trans; [exact B|exact G].
Qed.

(** distance to a unit vector *)
Lemma dist2_one_hot a : forall n i b, one_hot n i b -> length a = n ->
  exists s ai, nth_error a i = Some ai /\ s = dist2 a (repeat 0%Qc n) /\ dist2 a b = (s - (ai + ai) + 1)%Qc.
Proof.
  induction a as [|x t IH]; intros n i b (L & Hi & H) La; simpl in La; [lia|].
  destruct n as [|n]; [discriminate|]. injection La as La. destruct b as [|y b]; [discriminate|]. simpl in L. injection L as L.
  destruct i as [|i].
  - exists (dist2 (x :: t) (repeat 0%Qc (S n))), x. repeat split; auto. simpl.
    pose proof (H 0 ltac:(lia)) as H0. simpl in H0. injection H0 as ->.
    assert (b = repeat 0%Qc n) as ->.
    { apply nth_error_ext. intro j. destruct (Nat.lt_ge_cases j n).
      - pose proof (H (S j) ltac:(lia)) as H1. simpl in H1. rewrite H1. symmetry. apply nth_error_repeat; auto.
      - rewrite !(proj2 (nth_error_None _ _)); auto; rewrite ?repeat_length; lia. }
    ring.
  - destruct (IH n i b) as (s & ai & A & B & C).
    { repeat split; try lia. intros j Hj. exact (H (S j) ltac:(lia)). }
    { auto. }
    exists (dist2 (x :: t) (repeat 0%Qc (S n))), ai. repeat split; auto. simpl. rewrite C, <- B.
    pose proof (H 0 ltac:(lia)) as H0. simpl in H0. injection H0 as ->. ring.
Qed.

Lemma bandit_dists arms v w : (forall a, In a arms -> length a = w) -> length v = w ->
  mapM (fun a => d <- bcast Qcminus a v ;; Ok (qsum (map (fun x => (x * x)%Qc) d))) arms = Ok (map (fun a => dist2 a v) arms).
Proof.
  intros H Hv. apply mapM_all_ok. intros a Ha. unfold bcast. rewrite (H a Ha), Hv, Nat.eqb_refl. simpl. f_equal.
  specialize (H a Ha). revert v Hv H. clear. revert w. induction a as [|x a IH]; intros w [|y v]; simpl; intros; auto; try lia.
  rewrite qsum_cons. rewrite (IH (pred w)); auto; lia.
Qed.

Lemma clip_dist lo hi x y : (lo <= hi)%Qc -> (lo <= y)%Qc -> (y <= hi)%Qc ->
  ((x - round_cont lo hi x) * (x - round_cont lo hi x) <= (x - y) * (x - y))%Qc.
Proof.
  intros W H1 H2. unfold round_cont.
  destruct (qclt x lo) eqn:A; [|destruct (qclt hi x) eqn:B]; qcases.
  - assert (0 <= (y - lo) * (y - lo) + ((y - lo) * (lo - x) + (y - lo) * (lo - x)))%Qc.
    { qc2q. nra. }
    replace ((x - y) * (x - y))%Qc with ((x - lo) * (x - lo) + ((y - lo) * (y - lo) + ((y - lo) * (lo - x) + (y - lo) * (lo - x))))%Qc by ring.
    revert H. generalize ((y - lo) * (y - lo) + ((y - lo) * (lo - x) + (y - lo) * (lo - x)))%Qc ((x - lo) * (x - lo))%Qc. intros. qclra.
  - assert (0 <= (hi - y) * (hi - y) + ((hi - y) * (x - hi) + (hi - y) * (x - hi)))%Qc.
    { qc2q. nra. }
    replace ((x - y) * (x - y))%Qc with ((x - hi) * (x - hi) + ((hi - y) * (hi - y) + ((hi - y) * (x - hi) + (hi - y) * (x - hi))))%Qc by ring.
    revert H. generalize ((hi - y) * (hi - y) + ((hi - y) * (x - hi) + (hi - y) * (x - hi)))%Qc ((x - hi) * (x - hi))%Qc. intros. qclra.
  - replace ((x - x) * (x - x))%Qc with 0%Qc by ring. apply Qcsq_nonneg.
Qed.

(** Rounding one variable *)
Lemma var_round_spec v a : xv_ok v -> wf_kind (x_kind v) -> length a = x_mdim v ->
  exists b, (if is_bandit (x_kind v) then var_round v a = Ok (R2 b) else var_round v a = Ok (R1 b)) /\
    valid_block (x_kind v) b /\
    forall b', valid_block (x_kind v) b' -> (dist2 a b <= dist2 a b')%Qc.
Proof.
  unfold xv_ok. intros Hw W L. rewrite Hw in L. unfold var_round.
  destruct (x_kind v) as [lo hi|vals|isarr arms|cats] eqn:E; simpl in *.
  - destruct a as [|x [|]]; try discriminate. simpl. eexists. split; [reflexivity|]. split.
    + eexists. split; [reflexivity|]. unfold round_cont. destruct (qclt x lo) eqn:A; [|destruct (qclt hi x) eqn:B]; qcases; split; try apply Qcle_refl; auto.
    + intros b' (y & -> & H1 & H2). cbn [dist2]. pose proof (clip_dist lo hi x y W H1 H2) as G. revert G.
      generalize ((x - round_cont lo hi x) * (x - round_cont lo hi x))%Qc ((x - y) * (x - y))%Qc. intros. qclra.
  - destruct a as [|x [|]]; try discriminate. simpl. destruct vals as [|d0 t]; [congruence|].
    cbn [get nth_error bind]. eexists. split; [reflexivity|].
    destruct (round_disc_spec (d0 :: t) x d0) as (A & B & C). split.
    + eexists. split; [reflexivity|]. destruct A as [->|A]; simpl; auto.
    + intros b' (y & -> & Hy). specialize (C y Hy). simpl dist2. revert C.
      generalize (round_disc (d0 :: t) x d0). intros r C.
      replace ((x - r) * (x - r) + 0)%Qc with ((r - x) * (r - x))%Qc by ring.
      replace ((x - y) * (x - y) + 0)%Qc with ((y - x) * (y - x))%Qc by ring. exact C.
  - destruct W as (-> & NE & W). destruct arms as [|a0 arms]; [congruence|].
    assert (HL : forall c, In c (a0 :: arms) -> length c = length a0) by (intros; apply W; simpl; auto).
    unfold round_bandit. rewrite (bandit_dists (a0 :: arms) a (length a0) HL L). cbn [bind].
    destruct (argmin (map (fun c => dist2 c a) (a0 :: arms))) as [k|] eqn:K; [|discriminate].
    apply argmin_spec in K as (m & Hm & Hmin & _).
    rewrite nth_error_map in Hm. destruct (nth_error (a0 :: arms) k) as [b|] eqn:Eb; [|discriminate]. injection Hm as <-.
    exists b. unfold get. rewrite Eb. split; [reflexivity|]. split; [eapply nth_error_In; eauto|].
    intros b' Hb'. apply In_nth_error in Hb' as (j & Hj).
    rewrite (dist2_sym a b), (dist2_sym a b'). apply (Hmin j). rewrite nth_error_map, Hj. reflexivity.
  - destruct (argmax a) as [i|] eqn:A.
    2:{ destruct a; [|discriminate]. destruct cats; [congruence|discriminate]. }
    apply argmax_spec in A as (m & Hm & Hmax & _).
    assert (Hi : i < length a) by (apply nth_error_Some; congruence).
    exists (set_nth (repeat q0 (length a)) i q1). split; auto.
    pose proof (one_hot_set_nth (length a) i Hi) as O. rewrite <- L. split; [eauto|].
    intros b' (j & O'). rewrite <- ?L in O'.
    destruct (dist2_one_hot a _ _ _ O eq_refl) as (s & ai & A1 & A2 & ->).
    destruct (dist2_one_hot a _ _ _ O' eq_refl) as (s' & aj & B1 & B2 & ->).
    rewrite <- A2 in B2. subst s'. rewrite Hm in A1. injection A1 as <-. specialize (Hmax _ _ B1). qclra.
Qed.

(** Rounding a row: non-bandit *)
Lemma round_from_spec vs : Forall xv_ok vs -> Forall wf_kind (map x_kind vs) -> bandit_free (map x_kind vs) ->
  forall p x, length x = list_sum (map x_mdim vs) ->
  exists bs, round_from vs (length p) (p ++ x) = Ok (map R1 bs) /\
    length bs = length vs /\ design_point (map x_kind vs) (concat bs) /\
    forall r', design_point (map x_kind vs) r' -> (dist2 x (concat bs) <= dist2 x r')%Qc.
Proof.
  induction 1 as [|v vs Hv Hvs IH]; intros W B p x L; simpl in *.
  - exists []. destruct x; [|discriminate]. repeat split; auto; [constructor|]. intros r' Hr. inversion Hr. apply Qcle_refl.
  - inversion W as [|? ? W1 W2]; subst. inversion B as [|? ? B1 B2]; subst.
    set (a := firstn (x_mdim v) x). set (y := skipn (x_mdim v) x).
    assert (Ex : x = a ++ y) by (symmetry; apply firstn_skipn).
    assert (La : length a = x_mdim v) by (unfold a; rewrite firstn_length; lia).
    assert (Ly : length y = list_sum (map x_mdim vs)) by (unfold y; rewrite skipn_length; lia).
    destruct (var_round_spec v a Hv W1 La) as (b & R & Vb & Mb). rewrite B1 in R.
    destruct (IH W2 B2 (p ++ a) y Ly) as (bs & A1 & A2 & A3 & A4).
    exists (b :: bs). clearbody a y. subst x.
    rewrite <- La at 1. rewrite slice_app_skip. rewrite R. simpl bind.
    rewrite app_length, La, <- app_assoc in A1. rewrite A1. simpl. repeat split; auto.
    + constructor; auto.
    + intros r' Hr. inversion Hr as [|? ? b' r0 Hb' Hr0]; subst.
      assert (length b = width (x_kind v)) by (apply valid_block_width; auto).
      assert (length b' = width (x_kind v)) by (apply valid_block_width; auto).
      unfold xv_ok in Hv. rewrite !dist2_app by congruence.
      specialize (Mb b' Hb'). specialize (A4 r0 Hr0). qclra.
Qed.

Lemma all_R1_map bs : all_R1 (map R1 bs) = Some bs.
Proof. induction bs; simpl; auto. rewrite IHbs. auto. Qed.

Lemma round_optimum_spec sp x : space_facts sp -> Forall wf_kind (kinds sp) -> bandit_free (kinds sp) -> kinds sp <> [] ->
  length x = model_dimensionality sp ->
  exists r, round_optimum sp [x] = Ok [r] /\ design_point (kinds sp) r /\
    forall r', design_point (kinds sp) r' -> (dist2 x r <= dist2 x r')%Qc.
Proof.
  intros F W B NE L. destruct (round_from_spec (sp_xvars sp) (sf_ok _ F) W B [] x L) as (bs & A1 & A2 & A3 & A4).
  exists (concat bs). unfold round_optimum. simpl in A1. rewrite A1. simpl. unfold concat_rounded.
  rewrite all_R1_map. destruct bs; [|simpl; auto].
  unfold kinds in NE. destruct (sp_xvars sp); [exfalso; apply NE; reflexivity|discriminate].
Qed.

(** one bandit *)
Lemma round_optimum_bandit sp x isarr arms : space_facts sp -> kinds sp = [KBandit isarr arms] ->
  wf_kind (KBandit isarr arms) -> length x = model_dimensionality sp ->
  exists r, round_optimum sp [x] = Ok [r] /\ design_point (kinds sp) r /\
    forall r', design_point (kinds sp) r' -> (dist2 x r <= dist2 x r')%Qc.
Proof.
  intros F K W L. pose proof (sf_ok _ F) as O.
  unfold kinds in K. destruct (sp_xvars sp) as [|v [|]] eqn:E; try discriminate. simpl in K. injection K as K.
  inversion O as [|? ? Ov _]; subst. unfold model_dimensionality in L. rewrite E in L. simpl in L. rewrite Nat.add_0_r in L.
  destruct (var_round_spec v x Ov) as (b & R & Vb & Mb); auto. { rewrite K; auto. }
  rewrite K in R. simpl is_bandit in R. cbv iota in R.
  exists b. unfold round_optimum. rewrite E. simpl. rewrite <- L, slice_all, R. simpl. rewrite K in *. unfold kinds. rewrite E. simpl. rewrite K.
  split; auto. split.
  - rewrite <- (app_nil_r b). constructor; [exact Vb|constructor].
  - intros r' Hr. inversion Hr as [|? ? b' r0 Hb' Hr0]; subst. inversion Hr0; subst. rewrite app_nil_r. apply Mb; auto.
Qed.

Lemma design_point_length ks r : Forall wf_kind ks -> design_point ks r -> length r = total_width ks.
Proof.
  intros W H. induction H; simpl; auto. inversion W; subst. rewrite app_length, IHblocks by auto.
  rewrite (valid_block_width k b); auto.
Qed.

(** ---- bounds ---- *)
Definition within (x : Qc) (b : Qc * Qc) : Prop := (fst b <= x)%Qc /\ (x <= snd b)%Qc.

Lemma one_hot_within n i b : one_hot n i b -> Forall2 within b (repeat (q0, q1) n).
Proof.
  intros (L & Hi & H). revert n i L Hi H. induction b as [|x b IH]; intros n i L Hi H; simpl in L; [lia|].
  destruct n; [discriminate|]. simpl. constructor.
  - specialize (H 0 ltac:(lia)). simpl in H. injection H as ->. destruct i; split; cbn [fst snd]; qclra.
  - destruct i.
    + clear Hi IH. injection L as L. assert (G : forall j, j < n -> nth_error b j = Some 0%Qc) by (intros j Hj; exact (H (S j) ltac:(lia))).
      clear H. revert n L G. induction b; intros n L G; destruct n; try discriminate; simpl; constructor.
      * specialize (G 0 ltac:(lia)). injection G as ->. split; cbn [fst snd]; qclra.
      * apply IHb. auto. intros j Hj. exact (G (S j) ltac:(lia)).
    + apply (IH n i); try lia. intros j Hj. exact (H (S j) ltac:(lia)).
Qed.

Lemma Forall2_repeat_len {A B} (R : A -> B -> Prop) l l' : Forall2 R l l' -> length l = length l'.
Proof. apply Forall2_len. Qed.

Lemma var_bounds_spec v : xv_ok v -> wf_kind (x_kind v) -> is_bandit (x_kind v) = false ->
  exists bs, var_bounds v = Ok bs /\ length bs = x_mdim v /\
    forall b, valid_block (x_kind v) b -> Forall2 within b bs.
Proof.
  unfold xv_ok, var_bounds. intros Hw W B. destruct (x_kind v) eqn:E; simpl in *; try discriminate.
  - eexists; split; [reflexivity|]. split; auto. intros b (x & -> & H1 & H2). constructor; [split; auto|constructor].
  - destruct vals as [|d t]; [congruence|]. simpl. eexists; split; [reflexivity|]. split; auto.
    intros b (x & -> & Hx). constructor; [|constructor].
    destruct (lmin_le d t) as (A1 & A2 & _). destruct (lmax_ge d t) as (B1 & B2 & _).
    split; simpl; destruct Hx as [<-|Hx]; auto.
  - eexists; split; [reflexivity|]. rewrite repeat_length. split; auto.
    intros b (i & O). rewrite Hw. eapply one_hot_within; eauto.
Qed.

Lemma get_bounds_spec sp : space_facts sp -> Forall wf_kind (kinds sp) -> bandit_free (kinds sp) ->
  exists bs, get_bounds sp = Ok bs /\ length bs = model_dimensionality sp /\
    forall z, design_point (kinds sp) z -> Forall2 within z bs.
Proof.
  intros F. pose proof (sf_ok _ F) as O. clear F. unfold get_bounds, kinds, model_dimensionality, design_point, bandit_free.
  induction O as [|v vs Hv O IH]; simpl; intros W B.
  - exists []. repeat split; auto. intros z H; inversion H; constructor.
  - inversion W; subst. inversion B; subst. destruct (var_bounds_spec v) as (b0 & E1 & E2 & E3); auto.
    destruct IH as (bs & A1 & A2 & A3); auto. rewrite E1; simpl.
    apply bind_ok in A1 as (bss & A1 & A1'). injection A1' as <-. rewrite A1; simpl.
    eexists; split; [reflexivity|]. split; [rewrite app_length; lia|].
    intros z Hz. inversion Hz; subst. apply Forall2_app; auto.
Qed.

(** ---- column indices ---- *)
Lemma set_indices_partition vs : Forall xv_ok vs -> bandit_free (map x_kind vs) -> forall co cm,
  concat (map x_idx_mod (set_indices vs co cm)) = seq cm (list_sum (map x_mdim vs)) /\
  concat (map x_idx_obj (set_indices vs co cm)) = seq co (length vs) /\
  Forall2 (fun v l => length l = x_mdim v) vs (map x_idx_mod (set_indices vs co cm)).
Proof.
  induction 1 as [|v vs Hv O IH]; intros B co cm; simpl; auto.
  inversion B as [|? ? B1 B2]; subst. unfold xv_ok in Hv.
  destruct (x_kind v) eqn:E; simpl in *; try discriminate; rewrite Hv; simpl.
  - destruct (IH B2 (S co) (S cm)) as (A1 & A2 & A3). rewrite A1, A2. repeat split; auto; constructor; auto; simpl; rewrite Hv; auto.
  - destruct (IH B2 (S co) (S cm)) as (A1 & A2 & A3). rewrite A1, A2. repeat split; auto; constructor; auto; simpl; rewrite Hv; auto.
  - destruct (IH B2 (S co) (cm + length cats)) as (A1 & A2 & A3). rewrite A1, A2, seq_app. repeat split; auto; constructor; auto.
    rewrite seq_length; auto.
Qed.

(** reading the columns [l] of a row *)
Definition cols (z : vec) (l : list nat) : list (option Qc) := map (nth_error z) l.

Lemma cols_block b : forall r p, cols (p ++ b ++ r) (seq (length p) (length b)) = map Some b.
Proof.
  unfold cols. induction b as [|x b IHb]; intros r0 p0; simpl; auto. f_equal.
  - rewrite nth_error_app2, Nat.sub_diag; auto.
  - specialize (IHb r0 (p0 ++ [x])). rewrite app_length, <- app_assoc in IHb. simpl in IHb. rewrite Nat.add_1_r in IHb. exact IHb.
Qed.

Lemma set_indices_cols (P : kind -> vec -> Prop) : forall vs, Forall xv_ok vs -> bandit_free (map x_kind vs) ->
  (forall k b, In k (map x_kind vs) -> P k b -> length b = width k) ->
  forall z, blocks P (map x_kind vs) z -> forall p co,
  Forall (fun v => exists b, P (x_kind v) b /\ cols (p ++ z) (x_idx_mod v) = map Some b) (set_indices vs co (length p)).
Proof.
  induction 1 as [|v vs Ov O IH]; intros B HP z Hz p co; [constructor|].
  simpl in B, HP, Hz. inversion B as [|? ? B1 B2]; subst. inversion Hz as [|? ? b r Pb Pr]; subst.
  assert (Lb : length b = width (x_kind v)) by (apply HP; auto).
  assert (R : forall co', Forall (fun v0 => exists b0, P (x_kind v0) b0 /\ cols (p ++ b ++ r) (x_idx_mod v0) = map Some b0)
                (set_indices vs co' (length p + length b))).
  { intro co'. specialize (IH B2 (fun k b H1 H2 => HP k b (or_intror H1) H2) r Pr (p ++ b) co').
    rewrite app_length, <- app_assoc in IH. exact IH. }
  pose proof (cols_block b r p) as C. rewrite Lb in R, C.
  simpl. destruct (x_kind v) eqn:E; simpl in *; try discriminate; rewrite ?Nat.add_1_r in R; constructor; try apply R;
    exists b; split; auto.
Qed.
