(** Proofs for C132. *)
From Coq Require Import Reals List ZArith Bool Lia Lra Permutation.
From Flocq Require Import Core IEEE754.BinarySingleNaN.
From Verif.Model Require Import Py Float FloatRow FloatDup FloatAnchor Optim FloatPipe.
From Verif.Spec Require Import FloatSpec FloatRowSpec FloatDupSpec FloatAnchorSpec FloatPipeSpec.
From Verif.Proof Require Import Num FloatP FloatDupP FloatRowP FloatAnchorP.
Import ListNotations.
Local Open Scope R_scope.

Lemma Ok_inj {A} (a b : A) : Ok a = Ok b -> a = b.
Proof. congruence. Qed.
Lemma nth_seq s n i : (i < n)%nat -> nth_error (seq s n) i = Some (s + i)%nat.
Proof. revert s i. induction n as [|n IH]; intros s i L; [lia|]. destruct i as [|i]; cbn; [f_equal; lia|]. rewrite IH by lia. f_equal. lia. Qed.
Lemma int_of_ok x i : number x -> val x = IZR i -> int_of x = Ok i.
Proof.
  intros N V. destruct x as [s|s| |s m e B]; try discriminate N; cbn [int_of].
  - f_equal. unfold val in V. cbn in V. apply eq_IZR in V. congruence.
  - assert (P : forall a : Z, (if s then - a else a)%Z = i <-> IZR a = (if s then - IZR i else IZR i)).
    { intros a. destruct s; split; intros H; [subst; rewrite opp_IZR; lra|apply eq_IZR; rewrite opp_IZR; lra|congruence|now apply eq_IZR]. }
    f_equal. apply P. clear P N.
    assert (K : F2R (Float radix2 (Zpos m) e) = if s then - IZR i else IZR i).
    { unfold val, B2R in V. rewrite <- V. destruct s; unfold F2R; cbn [Fnum Fexp cond_Zopp]; [|reflexivity]. change (Z.neg m) with (- Z.pos m)%Z. rewrite opp_IZR. lra. }
    rewrite <- K. unfold F2R. cbn [Fnum Fexp]. clear V B. destruct (0 <=? e)%Z eqn:L.
    + apply Z.leb_le in L. rewrite mult_IZR, (IZR_Zpower radix2) by exact L. reflexivity.
    + apply Z.leb_gt in L. set (j := (if s then - i else i)%Z). assert (J : (if s then - IZR i else IZR i) = IZR j) by (unfold j; destruct s; [now rewrite opp_IZR|reflexivity]).
      rewrite J in K. unfold F2R in K. cbn [Fnum Fexp] in K.
      assert (Q : (Z.pos m = j * 2 ^ (- e))%Z).
      { apply eq_IZR. rewrite mult_IZR, (IZR_Zpower radix2) by lia. rewrite <- K. rewrite Rmult_assoc, <- bpow_plus, Z.add_opp_diag_r. cbn. ring. }
      rewrite K, Q. f_equal. apply Z.div_mul. pose proof (Z.pow_pos_nonneg 2 (- e)). lia.
Qed.

(** ---- one variable *)
Lemma to_model_ok k x : fvalue k x -> exists b, to_model k x = Ok b /\ fvalid k b.
Proof.
  destruct k as [lo hi|dom|n]; cbn [fvalue to_model fvalid]; [eauto|eauto|].
  intros (i & L & N & V). rewrite INR_IZR_INZ in V. rewrite (int_of_ok x _ N V). cbn [bind]. destruct (Z.of_nat i <? 0)%Z eqn:E; [apply Z.ltb_lt in E; lia|].
  replace ((0 <=? Z.of_nat i) && (Z.of_nat i <? Z.of_nat n))%Z with true by (symmetry; apply andb_true_intro; split; [apply Z.leb_le; lia|apply Z.ltb_lt; lia]).
  rewrite Nat2Z.id. eexists. split; [reflexivity|]. exists i. split; [exact L|reflexivity].
Qed.
Lemma small_exact n : (Z.abs n <= 2 ^ 53)%Z -> rnd (IZR n) = IZR n /\ Rabs (rnd (IZR n)) < bpow radix2 1024.
Proof.
  intros H. pose proof (rnd_F _ (F64_IZR n H)) as R. split; [exact R|]. rewrite R. destruct (of_Z_ok n H) as [_ V]. rewrite <- V. apply val_lt.
Qed.
Lemma hot_sum n i : (Z.of_nat n <= 2 ^ 53)%Z -> forall l s, (forall j, In j l -> (j < n)%nat) -> NoDup l -> (i < n)%nat -> number s ->
  (In i l -> val s = 0) -> (val s = 0 \/ val s = INR i) ->
  let r := fold_left (fun s jx => fadd s (fmul (of_Z (Z.of_nat (fst jx))) (snd jx))) (map (fun j => (j, of_Z (if Nat.eqb j i then 1 else 0))) l) s in
  number r /\ val r = if in_dec Nat.eq_dec i l then INR i else val s.
Proof.
  intros B. induction l as [|j l IH]; intros s HL ND Li Ns Z0 D; cbn [map fold_left fst snd].
  - split; [exact Ns|]. destruct (in_dec Nat.eq_dec i []) as [[]|_]; reflexivity.
  - assert (Lj : (j < n)%nat) by (apply HL; now left). destruct (of_Z_ok (Z.of_nat j)) as [Nj Vj]; [rewrite Z.abs_eq by lia; lia|].
    assert (P : number (fmul (of_Z (Z.of_nat j)) (of_Z (if Nat.eqb j i then 1 else 0))) /\ val (fmul (of_Z (Z.of_nat j)) (of_Z (if Nat.eqb j i then 1 else 0))) = if Nat.eqb j i then INR i else 0).
    { set (c := (if Nat.eqb j i then 1 else 0)%Z). destruct (of_Z_ok c) as [Nc Vc]; [unfold c; destruct (Nat.eqb j i); cbn; lia|].
      assert (E : val (of_Z (Z.of_nat j)) * val (of_Z c) = IZR (Z.of_nat j * c)) by (rewrite Vj, Vc, mult_IZR; reflexivity).
      destruct (small_exact (Z.of_nat j * c)) as [S1 S2]; [unfold c; destruct (Nat.eqb j i); rewrite ?Z.mul_1_r, ?Z.mul_0_r, Z.abs_eq by lia; lia|].
      destruct (fmul_ok _ _ Nj Nc) as [F1 F2]; [rewrite E; exact S2|]. split; [exact F1|]. rewrite F2, E, S1. unfold c. destruct (Nat.eqb_spec j i) as [->|]; [rewrite Z.mul_1_r; symmetry; apply INR_IZR_INZ|now rewrite Z.mul_0_r]. }
    destruct P as [NP VP]. set (t := fmul _ _) in *.
    assert (A : number (fadd s t) /\ val (fadd s t) = val s + val t).
    { assert (E : exists z, (Z.abs z <= 2 ^ 53)%Z /\ val s + val t = IZR z).
      { destruct (Nat.eqb_spec j i) as [->|NE]; rewrite VP.
        - rewrite Z0 by now left. exists (Z.of_nat i). split; [rewrite Z.abs_eq by lia; lia|]. rewrite INR_IZR_INZ. lra.
        - rewrite Rplus_0_r. destruct D as [-> | ->]; [exists 0%Z; split; [cbn; lia|reflexivity]|exists (Z.of_nat i); split; [rewrite Z.abs_eq by lia; lia|apply INR_IZR_INZ]]. }
      destruct E as (z & Hz & E). destruct (small_exact z Hz) as [S1 S2]. destruct (fadd_ok _ _ Ns NP) as [F1 F2]; [rewrite E; exact S2|]. split; [exact F1|]. rewrite F2, E, S1. reflexivity. }
    destruct A as [NA VA]. inversion ND as [|? ? NI ND']; subst.
    destruct (IH (fadd s t)) as [R1 R2]; auto.
    + intros j' Hj'. apply HL. now right.
    + intros I. rewrite VA, VP. destruct (Nat.eqb_spec j i) as [->|NE]; [contradiction|]. rewrite Z0 by (now right). lra.
    + rewrite VA, VP. destruct (Nat.eqb_spec j i) as [->|NE]; [rewrite Z0 by (now left); right; lra|rewrite Rplus_0_r; exact D].
    + split; [exact R1|]. rewrite R2, VA, VP. destruct (in_dec Nat.eq_dec i l) as [I|I], (in_dec Nat.eq_dec i (j :: l)) as [I'|I']; try reflexivity.
      * contradict I'. now right.
      * destruct I' as [->|I']; [|contradiction]. rewrite Nat.eqb_refl. rewrite Z0 by (now left). lra.
      * destruct (Nat.eqb_spec j i) as [->|NE]; [contradict I'; now left|lra].
Qed.
Lemma to_objective_ok k b : (forall n, k = FCat n -> (Z.of_nat n <= 2 ^ 53)%Z) -> fvalid k b -> exists x, to_objective k b = Ok x /\ fvalue k x.
Proof.
  intros H V. destruct k as [lo hi|dom|n]; cbn [fvalid to_objective fvalue] in *.
  - destruct V as (x & -> & I). exists x. auto.
  - destruct V as (x & -> & I). exists x. auto.
  - destruct V as (i & L & ->). eexists. split; [reflexivity|]. exists i. split; [exact L|].
    assert (E : combine (seq 0 n) (hot n i) = map (fun j => (j, of_Z (if Nat.eqb j i then 1 else 0))) (seq 0 n)).
    { unfold hot. generalize (seq 0 n). intros l. induction l as [|a l IH]; [reflexivity|]. cbn. now rewrite IH. }
    rewrite E. destruct f0_ok as [Z1 Z2]. destruct (hot_sum n i (H n eq_refl) (seq 0 n) f0) as [A B]; auto.
    + intros j Hj. apply in_seq in Hj. lia.
    + apply seq_NoDup.
    + split; [exact A|]. rewrite B. destruct (in_dec Nat.eq_dec i (seq 0 n)) as [_|N]; [reflexivity|]. contradict N. apply in_seq. lia.
Qed.
(** there and back *)
Lemma there_back k x b : (forall n, k = FCat n -> (Z.of_nat n <= 2 ^ 53)%Z) -> fvalue k x -> to_model k x = Ok b -> exists y, to_objective k b = Ok y /\ val y = val x.
Proof.
  intros H V E. destruct k as [lo hi|dom|n]; cbn [to_model] in E; try (injection E as <-; exists x; split; reflexivity).
  destruct (to_model_ok _ _ V) as (b' & E' & W). cbn [to_model] in E'. rewrite E in E'. injection E' as <-.
  destruct V as (i & L & N & V). pose proof V as V'. rewrite INR_IZR_INZ in V. rewrite (int_of_ok x _ N V) in E. cbn [bind] in E. destruct (Z.of_nat i <? 0)%Z eqn:Q; [apply Z.ltb_lt in Q; lia|].
  replace ((0 <=? Z.of_nat i) && (Z.of_nat i <? Z.of_nat n))%Z with true in E by (symmetry; apply andb_true_intro; split; [apply Z.leb_le; lia|apply Z.ltb_lt; lia]).
  rewrite Nat2Z.id in E. fold (hot n i) in E. apply Ok_inj in E. subst b.
  destruct (to_objective_ok (FCat n) (hot n i) H) as (y & E & j & Lj & Ny & Vy); [exists i; auto|]. exists y. split; [exact E|]. rewrite V', Vy.
  cbn [to_objective] in E. apply Ok_inj in E. subst y.
  assert (K : combine (seq 0 n) (hot n i) = map (fun j => (j, of_Z (if Nat.eqb j i then 1 else 0))) (seq 0 n)).
  { unfold hot. generalize (seq 0 n). intros l. induction l as [|a l IH]; [reflexivity|]. cbn. now rewrite IH. }
  rewrite <- Vy, K. destruct f0_ok as [Z1 Z2]. destruct (hot_sum n i (H n eq_refl) (seq 0 n) f0) as [A B]; auto.
  - intros j' Hj. apply in_seq in Hj. lia.
  - apply seq_NoDup.
  - rewrite B. destruct (in_dec Nat.eq_dec i (seq 0 n)) as [_|M]; [reflexivity|]. contradict M. apply in_seq. lia.
Qed.

(** ---- rows *)
Definition few (ks : list fkind) : Prop := forall n, In (FCat n) ks -> (Z.of_nat n <= 2 ^ 53)%Z.
Lemma few_cons k ks : few (k :: ks) -> (forall n, k = FCat n -> (Z.of_nat n <= 2 ^ 53)%Z) /\ few ks.
Proof. intros H. split; [intros n ->; apply H; now left|intros n I; apply H; now right]. Qed.
Lemma unzip_ok ks : forall row, configuration ks row -> exists x, unzip_f ks row = Ok x /\ fblocks fvalid ks x.
Proof.
  intros row C. induction C as [|k x ks row V C (r & E & B)]; [exists []; split; [reflexivity|constructor]|].
  destruct (to_model_ok k x V) as (b & Eb & Vb). exists (b ++ r). cbn [unzip_f]. rewrite Eb, E. split; [reflexivity|]. now constructor.
Qed.
Lemma zip_cons k ks b r : length b = fwidth k -> zip_f (k :: ks) (b ++ r) = (a <- to_objective k b ;; t <- zip_f ks r ;; Ok (a :: t)).
Proof.
  intros L. cbn [zip_f]. rewrite <- L, firstn_app, Nat.sub_diag, firstn_O, app_nil_r, firstn_all, skipn_app, Nat.sub_diag, skipn_all. reflexivity.
Qed.
Lemma zip_ok ks : few ks -> forall x, fblocks fvalid ks x -> exists row, zip_f ks x = Ok row /\ configuration ks row.
Proof.
  intros F x B. induction B as [|k ks b r V B IH]; [exists []; split; [reflexivity|constructor]|].
  destruct (few_cons _ _ F) as [Fk F']. destruct (IH F') as (row & E & C). destruct (to_objective_ok k b Fk V) as (a & Ea & Va).
  rewrite zip_cons by now apply fvalid_width. rewrite Ea, E. exists (a :: row). split; [reflexivity|]. now constructor.
Qed.
Lemma unzip_zip ks : few ks -> forall row x, configuration ks row -> unzip_f ks row = Ok x -> exists row', zip_f ks x = Ok row' /\ same_values row' row.
Proof.
  intros F row x C. revert x F. induction C as [|k a ks row V C IH]; intros x F E; [injection E as <-; exists []; split; reflexivity|].
  cbn [unzip_f] in E. destruct (to_model_ok k a V) as (b & Eb & Vb). rewrite Eb in E. cbn [bind] in E. destruct (unzip_f ks row) as [r|] eqn:Er; [|discriminate]. cbn [bind] in E. apply Ok_inj in E. subst x.
  destruct (few_cons _ _ F) as [Fk F']. destruct (IH r F' eq_refl) as (row' & E & S). destruct (there_back k a b Fk V Eb) as (y & Ey & Sy).
  rewrite zip_cons by now apply fvalid_width. rewrite Ey, E. exists (y :: row'). split; [reflexivity|]. unfold same_values in *. cbn [map]. congruence.
Qed.
Lemma configuration_numbers ks row : Forall fwell ks -> configuration ks row -> forall x, In x row -> number x.
Proof.
  intros W C. induction C as [|k a ks row V C IH]; intros x I; [destruct I|]; inversion W as [|? ? Wk W']; subst. destruct I as [<-|I]; [|now apply IH].
  destruct k; cbn in *; [apply V|destruct Wk as [_ Wk]; now apply Wk|destruct V as (? & _ & ? & _); assumption].
Qed.

(** ---- random designs *)
Lemma fill_ok ks : forall k c cont, (forall j ks', nth_error ks j = Some (FDisc ks') -> (c (k + j) < length ks')%nat) -> (forall j n, nth_error ks j = Some (FCat n) -> (c (k + j) < n)%nat) ->
  few ks -> Forall2 inside (cont_bounds ks) cont -> exists row, fill_row ks k c cont = Ok row /\ configuration ks row.
Proof.
  induction ks as [|a ks IH]; intros k c cont HD HC F IN; [exists []; split; [reflexivity|constructor]|]. destruct (few_cons _ _ F) as [Fk F'].
  assert (HD' : forall j d, nth_error ks j = Some (FDisc d) -> (c (S k + j) < length d)%nat) by (intros j d E; replace (S k + j)%nat with (k + S j)%nat by lia; now apply HD).
  assert (HC' : forall j n, nth_error ks j = Some (FCat n) -> (c (S k + j) < n)%nat) by (intros j d E; replace (S k + j)%nat with (k + S j)%nat by lia; now apply HC).
  destruct a as [lo hi|dom|n]; cbn [cont_bounds flat_map app fill_row] in *.
  - inversion IN as [|? x ? cont' Ix IN']; subst. destruct (IH (S k) c cont' HD' HC' F' IN') as (r & E & C). rewrite E. eexists. split; [reflexivity|]. now constructor.
  - specialize (HD 0%nat dom eq_refl). rewrite Nat.add_0_r in HD. destruct (IH (S k) c cont HD' HC' F' IN) as (r & E & C). unfold get. destruct (nth_error dom (c k)) as [x|] eqn:Ex; [|apply nth_error_None in Ex; lia].
    cbn [bind]. rewrite E. eexists. split; [reflexivity|]. constructor; [|exact C]. cbn. eapply nth_error_In; eauto.
  - specialize (HC 0%nat n eq_refl). rewrite Nat.add_0_r in HC. destruct (IH (S k) c cont HD' HC' F' IN) as (r & E & C). unfold get. rewrite nth_seq by exact HC. cbn [bind]. rewrite E. eexists. split; [reflexivity|].
    constructor; [|exact C]. cbn. exists (c k). split; [exact HC|]. specialize (Fk n eq_refl). destruct (of_Z_ok (Z.of_nat (c k))) as [A B]; [rewrite Z.abs_eq by lia; lia|]. split; [exact A|]. rewrite INR_IZR_INZ. exact B.
Qed.
Lemma mapMi_all {A B} (P : A -> Prop) (Q : B -> Prop) (f : nat -> A -> res B) : (forall i a, P a -> exists b, f i a = Ok b /\ Q b) -> forall l k, Forall P l ->
  exists bs, mapMi f k l = Ok bs /\ length bs = length l /\ Forall Q bs.
Proof.
  intros H. induction l as [|a l IH]; intros k F; [exists []; repeat constructor|]. inversion F; subst. destruct (H k a H2) as (b & E & Qb). destruct (IH (S k) H3) as (bs & E' & L & QB).
  cbn [mapMi]. rewrite E, E'. eexists. split; [reflexivity|]. split; [cbn; congruence|]. now constructor.
Qed.
Lemma cont_bounds_in ks b : In b (cont_bounds ks) -> In (FCont (fst b) (snd b)) ks.
Proof. unfold cont_bounds. intros H. apply in_flat_map in H as (k & I & J). destruct k as [lo hi|d|n]; cbn in J; [|contradiction|contradiction]. destruct J as [<-|[]]. exact I. Qed.
Lemma design_ok ks u c n : fspace ks -> (forall lo hi, In (FCont lo hi) ks -> no_overflow (lo, hi)) -> (forall i k, unit_draw (u i k)) ->
  (forall i k dom, nth_error ks k = Some (FDisc dom) -> (c i k < length dom)%nat) -> (forall i k m, nth_error ks k = Some (FCat m) -> (c i k < m)%nat) ->
  exists rows, random_design_f ks u c n = Ok rows /\ length rows = n /\ Forall (configuration ks) rows.
Proof.
  intros (_ & W & F) NO U HD HC. rewrite Forall_forall in W.
  destruct (samples_uniform_ok u (cont_bounds ks) n) as (rows & E & L & IN); auto.
  - apply Forall_forall. intros b I. apply cont_bounds_in in I. specialize (W _ I). cbn in W. now destruct b.
  - apply Forall_forall. intros b I. apply cont_bounds_in in I. specialize (NO _ _ I). now destruct b.
  - unfold random_design_f. rewrite E. cbn [bind]. destruct (mapMi_all (fun row => Forall2 inside (cont_bounds ks) row) (configuration ks) (fun i cont => fill_row ks 0 (c i) cont)) with (l := rows) (k := 0%nat) as (bs & E' & L' & Q); auto.
    + intros i cont HI. apply (fill_ok ks 0 (c i) cont); auto.
    + exists bs. split; [exact E'|]. split; [congruence|exact Q].
Qed.

(** ---- suggestions *)
Lemma round_valid ks x : fspace ks -> fblocks freadable ks x -> exists r, round_optimum_f ks x = Ok r /\ fblocks fvalid ks r.
Proof.
  intros (ND & W & _) B. rewrite Forall_forall in W. unfold round_optimum_f.
  destruct (rows_by freadable (fun k _ r => fvalid k r) (fun k b H => proj1 H) ks x) as (bs & rs & _ & F & E & G).
  - intros k b I P. destruct (fround_valid k b (W k I) P) as (r & A & V). eauto.
  - exact B.
  - rewrite E. cbn [bind]. exists (concat rs). split; [destruct ks; [congruence|reflexivity]|]. clear E ND W B. revert rs G. induction F as [|k b ks bs P F IH]; intros rs G; inversion G; subst; cbn; constructor; auto.
Qed.
Section Suggest.
Variables (ks : list fkind) (known : option (list (list float))).
Hypothesis SP : fspace ks.
(** not one of the known rows *)
Definition unknown (x : list float) : Prop := duplicate_of ks known x = Ok false.
Lemma duplicate_ok x : fblocks fvalid ks x -> exists d, duplicate_of ks known x = Ok d.
Proof. intros B. unfold duplicate_of. destruct known as [X|]; [|eauto]. destruct (zip_ok ks (proj2 (proj2 SP)) x B) as (r & E & _). rewrite E. cbn [bind]. eauto. Qed.
Lemma fresh_ok X : Forall (fblocks fvalid ks) X -> exists Y, fresh_rows ks known X = Ok Y /\ Forall (fun y => fblocks fvalid ks y /\ unknown y) Y /\ (forall x, In x X -> unknown x -> In x Y).
Proof.
  intros F. induction F as [|x X V F (Y & E & Q & C)]; [exists []; split; [reflexivity|]; split; [constructor|intros ? []]|].
  destruct (duplicate_ok x V) as (d & D). cbn [fresh_rows]. rewrite D, E. cbn [bind]. eexists. split; [reflexivity|]. destruct d.
  - split; [exact Q|]. intros y [->|I] U; [|auto]. unfold unknown in U. congruence.
  - split; [constructor; [split; [exact V|exact D]|exact Q]|]. intros y [->|I] U; [now left|right; auto].
Qed.
Lemma apply_ok local k x0 : no_nan ks local -> fblocks fvalid ks x0 -> unknown x0 -> exists r, apply_f ks known local k x0 = Ok r /\ fblocks fvalid ks r /\ unknown r.
Proof.
  intros NN V U. unfold apply_f. rewrite U. cbn [bind]. destruct (NN k x0) as (x & -> & R). cbn [bind]. destruct (round_valid ks x SP R) as (r & -> & Vr). cbn [bind].
  destruct (duplicate_ok r Vr) as (d & D). rewrite D. cbn [bind]. eexists. split; [reflexivity|]. destruct d; auto.
Qed.
Lemma suggest_ok score argsort local design : (forall l, sorts l (argsort l)) -> no_nan ks local -> Forall (configuration ks) design ->
  exists X, mapM (unzip_f ks) design = Ok X /\
  ((suggest_f ks known score argsort local design = Raise FullyExplored /\ forall x, In x X -> duplicate_of ks known x = Ok true) \/
  (exists x row, suggest_f ks known score argsort local design = Ok row /\ fblocks fvalid ks x /\ zip_f ks x = Ok row /\ unknown x)).
Proof.
  intros SO NN C.
  assert (HX : exists X, mapM (unzip_f ks) design = Ok X /\ Forall (fblocks fvalid ks) X).
  { clear SO NN. induction C as [|row design Cr C (X & E & V)]; [exists []; split; [reflexivity|constructor]|]. destruct (unzip_ok ks row Cr) as (x & Ex & Vx). exists (x :: X). cbn [mapM]. rewrite Ex. cbn [bind]. rewrite E. split; [reflexivity|]. now constructor. }
  destruct HX as (X & E & V). exists X. split; [exact E|]. unfold suggest_f. rewrite E. cbn [bind]. destruct (fresh_ok X V) as (Y & EY & Q & CY). rewrite EY. cbn [bind].
  destruct Y as [|y Y].
  { left. split; [reflexivity|]. intros x I. rewrite Forall_forall in V. destruct (duplicate_ok x (V x I)) as (d & D). rewrite D. destruct d; [reflexivity|]. destruct (CY x I D). }
  right. unfold optimize_f. set (YY := y :: Y) in *.
  destruct (anchors_spec YY (map score YY) (argsort (map score YY)) 5) as (ys & EA & chosen & N & L & _ & F & _); [now rewrite map_length|apply SO|]. rewrite EA. cbn [bind].
  assert (QY : Forall (fun y => fblocks fvalid ks y /\ unknown y) ys).
  { apply Forall_forall. intros z I. rewrite Forall_forall in Q. apply Q. clear - F I. induction F as [|i w ch ys H F IH]; [destruct I|]. destruct I as [->|I]; [eapply nth_error_In; eauto|auto]. }
  destruct (mapMi_all (fun y => fblocks fvalid ks y /\ unknown y) (fun p : list float * float => fblocks fvalid ks (fst p) /\ unknown (fst p)) (fun k x0 => x <- apply_f ks known local k x0 ;; Ok (x, score x))) with (l := ys) (k := 0%nat) as (pts & EP & LP & QP).
  { intros i a [Va Ua]. destruct (apply_ok local i a NN Va Ua) as (r & -> & Vr & Ur). cbn [bind]. eexists. split; [reflexivity|]. split; [exact Vr|exact Ur]. }
  { exact QY. }
  assert (EPb : mapMi (fun k x0 => x <- apply_f ks known local k x0 ;; Ok (x, score x)) 0 ys = Ok pts) by exact EP. rewrite EPb. cbn [bind].
  destruct pts as [|p pts].
  { exfalso. apply Forall2_len in F. cbn [length] in LP. rewrite <- LP in F. rewrite L in F. unfold YY in F. cbn in F. lia. }
  cbn [pick_f bind]. assert (IP : In (pick_from p pts) (p :: pts)).
  { destruct (pick_from_spec pts p) as [H1 H2]. destruct (nan_p (snd p)) eqn:NP; [rewrite (H1 eq_refl); now left|apply (H2 eq_refl)]. }
  rewrite Forall_forall in QP. destruct (QP _ IP) as [Vp Up]. destruct (zip_ok ks (proj2 (proj2 SP)) _ Vp) as (row & Er & _). exists (fst (pick_from p pts)), row. auto.
Qed.
End Suggest.
