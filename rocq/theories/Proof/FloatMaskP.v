(** Lemmas for Props/PFloatMask.v. *)
From Coq Require Import List ZArith Bool Reals Lra Lia.
From Flocq Require Import Core IEEE754.BinarySingleNaN.
From Verif.Model Require Import Py Float FloatRow FloatStop FloatCons FloatAcq FloatAnchor FloatPipe FloatReject FloatMask Optim.
From Verif.Spec Require Import FloatSpec FloatAcqSpec FloatRowSpec FloatAnchorSpec FloatConsSpec FloatPipeSpec FloatRejectSpec FloatMaskSpec.
From Verif.Proof Require Import Num FloatP FloatStopP FloatConsP FloatRowP FloatAcqP FloatAnchorP FloatPipeP FloatRejectP.
Import ListNotations.
Local Open Scope nat_scope.

Lemma kept_satisfies es x : kept es x -> satisfies es x = Ok true.
Proof.
  induction es as [|e es IH]; intros K; [reflexivity|]. cbn [satisfies]. destruct (K e (or_introl eq_refl)) as (v & E & L). rewrite E. cbn [bind].
  rewrite IH by (intros e' I; apply K; now right). cbn [bind]. apply fle_zero in L. now rewrite L.
Qed.
(** a point that is not worse than a kept and worthwhile one is kept *)
Lemma not_worse_kept ks es raw cost x0 x r0 : (forall z, number (cost z) /\ (0 < val (cost z))%R) -> x_z ks x0 = Ok r0 -> kept es r0 -> worthwhile raw cost x0 ->
  nan_p (masked_f ks es raw cost x) = false -> flt (masked_f ks es raw cost x0) (masked_f ks es raw cost x) = false -> forall r, x_z ks x = Ok r -> kept es r.
Proof.
  intros C Z0 K (N & P & W) NN L r Z. unfold masked_f in NN, L. rewrite Z0 in L. rewrite Z in NN, L. cbn [bind] in NN, L. rewrite (kept_satisfies es r0 K) in L.
  destruct (satisfies es r) as [[|]|e] eqn:S; [now apply (satisfies_kept es r true S)| |discriminate NN]. exfalso.
  destruct (C x0) as [N0 P0]. destruct (C x) as [N1 P1]. destruct (prefers (raw x0) (cost x0) N N0 P P0) as [_ Q]. apply Q in W.
  destruct (weighted_in (raw x0) (cost x0) N) as [I _]; [lra|]. destruct (weighted_out (raw x0) (cost x0) N) as [O V]; [lra|].
  destruct (infeasible_value (raw x) (cost x) N1 P1 NN) as [O' V']. apply flt_true_le in W; [|exact I|now apply not_nan]. apply flt_false_le in L; [|exact I|exact NN].
  assert (PL : forall z, number z -> place z = val z) by (intros z Hz; unfold place; now rewrite Hz). rewrite (PL _ O) in W. rewrite (PL _ O') in L. lra.
Qed.
(** ---- the row of a point *)
Lemma several_cons k ks : several (k :: ks) -> 1 <= fwidth k /\ (fwidth k = 1 -> forall x, to_objective k [x] = Ok x) /\ several ks.
Proof.
  intros N. split; [|split; [|intros n I; apply N; now right]].
  - destruct k as [| |n]; cbn; try lia. specialize (N n (or_introl eq_refl)). lia.
  - destruct k as [| |n]; try reflexivity. specialize (N n (or_introl eq_refl)). intros W. cbn in W. lia.
Qed.
Lemma widths_ge ks : several ks -> length ks <= list_sum (map fwidth ks).
Proof. induction ks as [|k ks IH]; intros N; [cbn; lia|]. destruct (several_cons k ks N) as (A & _ & B). specialize (IH B). change (list_sum (map fwidth (k :: ks))) with (fwidth k + list_sum (map fwidth ks)). cbn [length]. lia. Qed.
Lemma fblocks_width ks x : fblocks fvalid ks x -> length x = list_sum (map fwidth ks).
Proof. intros B. induction B as [|k ks b r V B IH]; [reflexivity|]. rewrite app_length, IH, (fvalid_width _ _ V). reflexivity. Qed.
Lemma zip_same ks : several ks -> list_sum (map fwidth ks) = length ks -> forall x, length x = length ks -> zip_f ks x = Ok x.
Proof.
  induction ks as [|k ks IH]; intros N W x L; [now destruct x|]. destruct (several_cons k ks N) as (A & O & B). pose proof (widths_ge ks B) as G. change (list_sum (map fwidth (k :: ks))) with (fwidth k + list_sum (map fwidth ks)) in W. cbn [length] in W.
  assert (fwidth k = 1 /\ list_sum (map fwidth ks) = length ks) as [W1 W2] by lia. destruct x as [|y x]; [discriminate L|]. cbn [zip_f]. rewrite W1. cbn [firstn skipn]. rewrite (O W1). cbn [bind].
  rewrite (IH B W2 x) by (cbn in L; lia). reflexivity.
Qed.
Lemma x_z_zip ks x row : several ks -> fblocks fvalid ks x -> zip_f ks x = Ok row -> x_z ks x = Ok row.
Proof.
  intros N B Z. unfold x_z. destruct (Nat.eqb_spec (list_sum (map fwidth ks)) (length ks)) as [E|E]; [|exact Z]. rewrite <- Z. symmetry. apply zip_same; auto. rewrite (fblocks_width ks x B). exact E.
Qed.
(** ---- drawn rows come back unchanged *)
Definition fine (ks : list fkind) (row : list float) : Prop := Forall2 (fun k x => match k with FCat n => exists i, i < n /\ x = of_Z (Z.of_nat i) | _ => True end) ks row.
Lemma fill_fine ks : forall k c cont row, fill_row ks k c cont = Ok row -> fine ks row.
Proof.
  induction ks as [|a ks IH]; intros k c cont row E; cbn [fill_row] in E; [apply Ok_inj in E; subst row; constructor|]. destruct a as [lo hi|dom|n].
  - destruct cont as [|x cont]; [discriminate E|]. destruct (fill_row ks (S k) c cont) as [r|] eqn:R; [|discriminate E]. cbn [bind] in E. apply Ok_inj in E. subst row. constructor; [exact I|eapply IH; eauto].
  - destruct (get dom (c k)); [|discriminate E]. cbn [bind] in E. destruct (fill_row ks (S k) c cont) as [r|] eqn:R; [|discriminate E]. cbn [bind] in E. apply Ok_inj in E. subst row. constructor; [exact I|eapply IH; eauto].
  - destruct (get (seq 0 n) (c k)) as [i|] eqn:G; [|discriminate E]. cbn [bind] in E. destruct (fill_row ks (S k) c cont) as [r|] eqn:R; [|discriminate E]. cbn [bind] in E. apply Ok_inj in E. subst row. constructor; [|eapply IH; eauto]. exists i. split; [|reflexivity]. unfold get in G. destruct (nth_error (seq 0 n) (c k)) eqn:K; [|discriminate G]. apply Ok_inj in G. subst. apply nth_error_In, in_seq in K. lia.
Qed.
Lemma design_fine ks u c n D : random_design_f ks u c n = Ok D -> Forall (fine ks) D.
Proof.
  unfold random_design_f. destruct (samples_uniform u (cont_bounds ks) n) as [rows|]; [|discriminate]. cbn [bind]. intros E. apply mapMi_length in E. clear - E.
  induction E as [|a b l l' (j & H) F IH]; constructor; [eapply fill_fine; eauto|exact IH].
Qed.
Lemma samples_fine fuel ks es u c n rows : get_samples_f fuel ks es u c n = Some (Ok rows) -> Forall (fine ks) rows.
Proof.
  unfold get_samples_f. destruct es as [|e es']; intros H; [injection H as H; eapply design_fine; eauto|].
  destruct (reject_spec ks (e :: es') u c n fuel [] [] rows) as (Ds & V & R & S & L & ->); [intros [|t] D K; discriminate K|constructor|exact H|].
  pose proof (sel_in _ _ _ S) as Q. rewrite Forall_forall in Q. apply Forall_forall. intros x I. assert (J : In x V) by (rewrite <- (firstn_skipn n V); apply in_or_app; now left).
  destruct (Q x J) as [_ M]. apply in_concat in M. destruct M as (D & A & B). apply In_nth_error in A. destruct A as (t & A). apply R in A. apply design_fine in A. rewrite Forall_forall in A. now apply A.
Qed.
Lemma zero_sum n : (Z.of_nat n <= 2 ^ 53)%Z -> forall l, (forall j, In j l -> j < n) ->
  fold_left (fun s jx => fadd s (fmul (of_Z (Z.of_nat (fst jx))) (snd jx))) (map (fun j => (j, of_Z (if Nat.eqb j 0 then 1 else 0))) l) f0 = f0.
Proof.
  intros B. assert (Z0 : of_Z 0 = B754_zero false) by reflexivity. induction l as [|j l IH]; intros H; [reflexivity|]. cbn [map fold_left fst snd].
  assert (E : fadd f0 (fmul (of_Z (Z.of_nat j)) (of_Z (if Nat.eqb j 0 then 1 else 0))) = f0).
  { destruct j as [|j]; [reflexivity|]. cbn [Nat.eqb]. assert (L : S j < n) by (apply H; now left). destruct (of_Z_ok (Z.of_nat (S j))) as [N V]; [rewrite Z.abs_eq by lia; lia|].
    destruct (pos_form _ N) as (m & e & b & F); [rewrite V; apply IZR_lt; lia|]. rewrite F, Z0. reflexivity. }
  rewrite E. apply IH. intros i I. apply H. now right.
Qed.
Lemma back k x b : (forall n, k = FCat n -> (Z.of_nat n <= 2 ^ 53)%Z) -> fvalue k x -> match k with FCat n => exists i, i < n /\ x = of_Z (Z.of_nat i) | _ => True end -> to_model k x = Ok b -> to_objective k b = Ok x.
Proof.
  intros H V F E. destruct k as [lo hi|dom|n]; [apply Ok_inj in E; subst b; reflexivity|apply Ok_inj in E; subst b; reflexivity|].
  specialize (H n eq_refl). destruct F as (i & L & ->). destruct (of_Z_ok (Z.of_nat i)) as [Ni Vi]; [rewrite Z.abs_eq by lia; lia|]. cbn [to_model] in E. rewrite (int_of_ok _ _ Ni Vi) in E. cbn [bind] in E.
  destruct (Z.of_nat i <? 0)%Z eqn:Q; [apply Z.ltb_lt in Q; lia|].
  replace ((0 <=? Z.of_nat i) && (Z.of_nat i <? Z.of_nat n))%Z with true in E by (symmetry; apply andb_true_intro; split; [apply Z.leb_le; lia|apply Z.ltb_lt; lia]).
  rewrite Nat2Z.id in E. apply Ok_inj in E. subst b. cbn [to_objective]. f_equal.
  assert (K : combine (seq 0 n) (map (fun j => of_Z (if Nat.eqb j i then 1 else 0)) (seq 0 n)) = map (fun j => (j, of_Z (if Nat.eqb j i then 1 else 0))) (seq 0 n)).
  { generalize (seq 0 n). intros l. induction l as [|a l IH]; [reflexivity|]. cbn. now rewrite IH. }
  rewrite K. destruct i as [|i].
  - apply (zero_sum n H). intros j J. apply in_seq in J. lia.
  - destruct f0_ok as [Z1 Z2]. destruct (hot_sum n (S i) H (seq 0 n) f0) as [A B]; auto.
    + intros j J. apply in_seq in J. lia.
    + apply seq_NoDup.
    + destruct (in_dec Nat.eq_dec (S i) (seq 0 n)) as [_|M]; [|contradict M; apply in_seq; lia]. rewrite INR_IZR_INZ, <- Vi in B.
      assert (FS : forall y, number y -> val y = val (of_Z (Z.of_nat (S i))) -> is_finite_strict y = true).
      { intros y Ny Vy. destruct (pos_form y Ny) as (m & e & b & ->); [|reflexivity]. rewrite Vy, Vi. apply IZR_lt. lia. }
      apply B2R_inj; [now apply FS|now apply FS|exact B].
Qed.
Lemma round_trip ks : few ks -> forall row x, configuration ks row -> fine ks row -> unzip_f ks row = Ok x -> zip_f ks x = Ok row /\ fblocks fvalid ks x.
Proof.
  intros F row x C. revert x F. induction C as [|k a ks row V C IH]; intros x F FI E; [injection E as <-; split; [reflexivity|constructor]|].
  cbn [unzip_f] in E. destruct (to_model_ok k a V) as (b & Eb & Vb). rewrite Eb in E. cbn [bind] in E. destruct (unzip_f ks row) as [r|] eqn:Er; [|discriminate]. cbn [bind] in E. apply Ok_inj in E. subst x.
  inversion FI as [|? ? ? ? Fa FI']; subst. destruct (few_cons _ _ F) as [Fk F']. destruct (IH r F' FI' eq_refl) as [E B].
  split; [|now constructor]. rewrite zip_cons by now apply fvalid_width. rewrite (back k a b Fk V Fa Eb), E. reflexivity.
Qed.
Lemma fresh_in ks known X : forall Y, fresh_rows ks known X = Ok Y -> forall y, In y Y -> In y X.
Proof.
  induction X as [|x X IH]; intros Y E y I; cbn [fresh_rows] in E; [injection E as <-; exact I|].
  destruct (duplicate_of ks known x) as [d|]; [|discriminate E]. cbn [bind] in E. destruct (fresh_rows ks known X) as [r|]; [|discriminate E]. cbn [bind] in E. apply Ok_inj in E. subst Y.
  destruct d; [right; eapply IH; eauto|]. destruct I as [->|I]; [now left|right; eapply IH; eauto].
Qed.
Lemma got_in {A} (X : list A) is : forall ys, mapM (get X) is = Ok ys -> forall y, In y ys -> In y X.
Proof.
  induction is as [|i is IH]; intros ys E y I; cbn [mapM] in E; [apply Ok_inj in E; subst ys; destruct I|].
  destruct (get X i) as [z|] eqn:G; [|discriminate E]. cbn [bind] in E. destruct (mapM (get X) is) as [zs|] eqn:M; [|discriminate E]. cbn [bind] in E. apply Ok_inj in E. subst ys.
  destruct I as [->|I]; [|eapply IH; eauto]. unfold get in G. destruct (nth_error X i) eqn:Ni; [|discriminate G]. apply Ok_inj in G. subst. eapply nth_error_In; eauto.
Qed.
Lemma picked {A} (pts : list (A * float)) p : pick_f pts = Ok p -> In p pts.
Proof.
  destruct pts as [|q pts]; [discriminate|]. intros E. cbn [pick_f] in E. apply Ok_inj in E. subst p. revert q. induction pts as [|r pts IH]; intros q; cbn [pick_from]; [now left|].
  destruct (flt (snd r) (snd q)); [destruct (IH r) as [H|H]; [right; left; exact H|right; right; exact H]|]. destruct (IH q) as [H|H]; [left; exact H|right; right; exact H].
Qed.
Lemma suggested ks known score argsort local design row : suggest_f ks known score argsort local design = Ok row -> exists X x0 x k,
  mapM (unzip_f ks) design = Ok X /\ In x0 X /\ (x = x0 \/ rounded_local ks local k x0 = Ok x) /\ zip_f ks x = Ok row.
Proof.
  unfold suggest_f. destruct (mapM (unzip_f ks) design) as [X|]; [|discriminate]. cbn [bind]. destruct (fresh_rows ks known X) as [Y|] eqn:EY; [|discriminate]. cbn [bind].
  destruct Y as [|y Y]; [discriminate|]. unfold optimize_f. destruct (anchors_f _ _ _ _) as [ys|] eqn:EA; [|discriminate]. cbn [bind].
  destruct (mapMi _ 0 ys) as [pts|] eqn:EP; [|discriminate]. cbn [bind]. destruct (pick_f pts) as [p|] eqn:EK; [|discriminate]. cbn [bind]. intros Z.
  apply picked in EK. apply mapMi_length in EP. assert (Q : exists x0 k, In x0 ys /\ (x <- apply_f ks known local k x0 ;; Ok (x, score x)) = Ok p).
  { clear - EP EK. induction EP as [|a b l l' (k & H) F IH]; [destruct EK|]. destruct EK as [->|I]; [exists a, k; split; [now left|exact H]|]. destruct (IH I) as (x0 & j & J & G). exists x0, j. split; [now right|exact G]. }
  destruct Q as (x0 & k & I & E). assert (IX : In x0 X) by (eapply fresh_in; [exact EY|]; eapply got_in; [exact EA|exact I]).
  unfold apply_f in E. destruct (duplicate_of ks known x0) as [[|]|]; try discriminate E. cbn [bind] in E.
  destruct (local k x0) as [z|] eqn:EL; [|discriminate E]. cbn [bind] in E. destruct (round_optimum_f ks z) as [r|] eqn:ER; [|discriminate E]. cbn [bind] in E.
  destruct (duplicate_of ks known r) as [d|]; [|discriminate E]. cbn [bind] in E. apply Ok_inj in E. subst p. cbn [fst] in Z.
  exists X, x0, (if d then x0 else r), k. split; [reflexivity|]. split; [exact IX|]. split; [|exact Z]. destruct d; [now left|right]. unfold rounded_local. rewrite EL. cbn [bind]. exact ER.
Qed.

Lemma inside_round lo hi x : interval (lo, hi) -> inside (lo, hi) x -> round_continuous lo hi x = x.
Proof.
  intros (A & B & _) (N & L & H). cbn [fst snd] in *. unfold round_continuous. rewrite flt_ok by assumption. rewrite Rlt_bool_false by lra. rewrite flt_ok by assumption. rewrite Rlt_bool_false by lra. reflexivity.
Qed.
Lemma continuous_round ks : continuous ks -> Forall fwell ks -> ks <> [] -> forall x, configuration ks x -> round_optimum_f ks x = Ok x.
Proof.
  intros C W ND x CO. unfold round_optimum_f. enough (exists rs, fround_from ks 0 x = Ok rs /\ concat rs = x) as (rs & -> & <-) by (cbn [bind]; destruct ks; [congruence|reflexivity]).
  clear ND. induction CO as [|k x ks row V CO IH]; [exists []; split; reflexivity|]. inversion W as [|? ? Wk Ws]; subst. destruct (C k (or_introl eq_refl)) as (lo & hi & ->).
  destruct IH as (rs & E & F); [intros k' I; apply C; now right|exact Ws|]. exists ([x] :: rs). split; [|cbn; now rewrite F]. change (x :: row) with ([x] ++ row). rewrite fround_from_cons by reflexivity.
  cbn [fround get nth_error bind]. unfold get. cbn [nth_error bind]. rewrite (inside_round lo hi x Wk V). rewrite E. reflexivity.
Qed.
