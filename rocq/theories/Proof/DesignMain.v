(** Final forms of the initial-design lemmas. *)
From Coq Require Import String List ZArith QArith Qcanon Bool Lqa Lia.
From Verif.Model Require Import Py Space Design.
From Verif.Spec Require Import SpaceSpec DesignSpec Examples.
From Verif.Proof Require Import Num Dec SpaceP ConstructP SpaceMain IrootP DesignP.
Import ListNotations.
Local Open Scope nat_scope.

Lemma user_values_blocks ks row : bandit_free ks -> Forall2 user_value ks row -> design_row ks row.
Proof.
  intros B H. induction H as [|k x ks row U H IH]; [constructor|]. inversion B; subst.
  change (x :: row) with ([x] ++ row). constructor; [|apply IH; auto].
  destruct k; simpl in *; try discriminate; eauto.
Qed.

Lemma uniform_rows u bs n : unit_draws u -> Forall (fun b => (fst b <= snd b)%Qc) bs ->
  Forall (in_box bs) (samples_multidimensional_uniform u bs n).
Proof.
  intros U H. unfold samples_multidimensional_uniform. apply Forall_map, Forall_forall. intros i _. unfold in_box.
  generalize 0. induction H as [|[lo hi] t Hb H IH]; intro k; simpl; constructor; auto. simpl in *.
  destruct (U k i) as [U0 U1]. generalize dependent (u k i). intros y U0 U1. split; qcnra.
Qed.
Lemma uniform_length u bs n : length (samples_multidimensional_uniform u bs n) = n.
Proof. unfold samples_multidimensional_uniform. rewrite map_length, seq_length. auto. Qed.
Lemma in_box_length bs x : in_box bs x -> length x = length bs.
Proof. induction 1; simpl; auto. Qed.

Lemma cbounds_wf ks : Forall wf_kind ks -> Forall (fun b => (fst b <= snd b)%Qc) (cbounds ks).
Proof.
  induction 1 as [|k ks W H IH]; [constructor|]. unfold cbounds in *. simpl. apply Forall_app. split; auto.
  destruct k; simpl in *; auto.
Qed.

Lemma without_constraints_free ds cs sp dr n : design_space ds cs = Ok sp -> Forall wf_kind (kinds sp) -> bandit_free (kinds sp) ->
  unit_draws (dr_unif dr) ->
  exists M, get_samples_without_constraints sp dr n = Ok M /\ length M = n /\ Forall (Forall2 user_value (kinds sp)) M.
Proof.
  intros D W B U. destruct (space_dim _ _ _ D B) as (E & E2 & _).
  pose proof (uniform_rows (dr_unif dr) (cbounds (kinds sp)) n U (cbounds_wf _ W)) as HX.
  eexists. split; [|split].
  - unfold get_samples_without_constraints. rewrite E2.
    apply (assign_final ds cs sp dr n); auto; [apply uniform_length|].
    eapply Forall_impl; [|exact HX]. apply in_box_length.
  - rewrite map_length, combine_length, seq_length, uniform_length. lia.
  - apply Forall_map, Forall_forall. intros [i x] I. eapply final_row_ok; eauto.
    rewrite Forall_forall in HX. apply HX. eapply in_combine_r; eauto.
Qed.

Lemma has_continuous_bandit ds cs sp ia arms : design_space ds cs = Ok sp -> kinds sp = [KBandit ia arms] -> has_continuous sp = false.
Proof.
  intros D K. pose proof (design_space_facts _ _ _ D) as F.
  assert (HB : has_bandit sp = true).
  { destruct (has_bandit sp) eqn:E; auto. apply (sf_nb _ F) in E. rewrite K in E. inversion E. discriminate. }
  unfold design_space in D. apply bind_ok in D as (vs & Hv & D).
  apply bind_ok in D as (cfg & Hc & D). apply bind_ok in D as (xss & Hx & D). injection D as <-.
  unfold translate_space in Hv. apply bind_ok in Hv as (vs' & Hv' & Hv).
  destruct (existsb _ vs' && existsb _ vs') eqn:E; [discriminate|]. injection Hv as ->.
  unfold has_bandit in HB. simpl in HB. rewrite HB in E. simpl in E. apply existsb_false in E.
  unfold has_continuous. simpl. apply existsb_false. eapply Forall_impl; [|exact E].
  intros v. simpl. destruct (v_kind v); simpl; auto; discriminate.
Qed.

Lemma random_main ds cs sp dr n : design_space ds cs = Ok sp -> Forall wf_kind (kinds sp) -> sampleable sp ->
  unit_draws (dr_unif dr) ->
  exists M, get_samples_without_constraints sp dr n = Ok M /\ length M = n /\ Forall (design_row (kinds sp)) M.
Proof.
  intros D W [B|(ia & arms & K & L)] U.
  - destruct (without_constraints_free _ _ _ _ n D W B U) as (M & A1 & A2 & A3). exists M. repeat split; auto.
    eapply Forall_impl; [|exact A3]. intros. apply user_values_blocks; auto.
  - unfold get_samples_without_constraints. rewrite (has_continuous_bandit _ _ _ _ _ D K).
    unfold fill_noncontinuous. rewrite L, K. rewrite K in W. unfold kinds in K. destruct (sp_xvars sp) as [|v [|v' t]]; try discriminate.
    injection K as K. cbn [fill_from]. unfold fill_var. rewrite K.
    inversion W as [|? ? W1 _]; subst. destruct W1 as (_ & NE & EQ).
    destruct arms as [|a arms]; [congruence|].
    replace (total_width [KBandit ia (a :: arms)]) with (length a) by (unfold total_width; simpl; lia).
    cbn [Nat.add]. rewrite Nat.leb_refl. cbn [bind fill_from].
    eexists. split; [reflexivity|]. unfold np_empty. rewrite (mapi_map_seq _ _ n 0). split; [rewrite map_length, seq_length; auto|].
    apply Forall_map, Forall_forall. intros i _.
    assert (I : In (choice a (a :: arms) (dr_idx dr 0 i)) (a :: arms)) by (apply choice_in; discriminate).
    assert (LA : length (choice a (a :: arms) (dr_idx dr 0 i)) = length a) by (apply EQ; auto; left; auto).
    unfold set_slice. simpl. rewrite LA. rewrite skipn_all2 by (rewrite map_length, seq_length; auto).
    apply blocks_cons; [exact I|constructor].
Qed.

(** ---- C11 ---- *)
Lemma fill_var_length dim dr idx v M M' : fill_var dim dr idx v M = Ok M' -> length M' = length M.
Proof.
  unfold fill_var. destruct (x_kind v) as [lo hi|vals|ia arms|vals];
    try destruct vals; try destruct arms; try discriminate; try destruct (Nat.ltb _ _); try destruct (Nat.leb _ _);
    intros [= <-]; auto; apply mapi_length.
Qed.
Lemma fill_from_length dim dr vs : forall idx M M', fill_from dim dr idx vs M = Ok M' -> length M' = length M.
Proof.
  induction vs as [|v t IH]; intros idx M M'; cbn [fill_from].
  - intros [= <-]; auto.
  - intro H. apply bind_ok in H as (M1 & H1 & H2). apply IH in H2. apply fill_var_length in H1. congruence.
Qed.
Lemma without_length sp dr n M : get_samples_without_constraints sp dr n = Ok M -> length M = n.
Proof.
  unfold get_samples_without_constraints. intro H. apply bind_ok in H as (M1 & H1 & H2).
  apply fill_from_length in H1. unfold np_empty in H1. rewrite map_length, seq_length in H1.
  destruct (has_continuous sp); [|injection H2 as <-; auto].
  apply bind_ok in H2 as (dims & _ & H2). unfold assign_cols in H2.
  destruct (Nat.eqb_spec (length M1) (length (samples_multidimensional_uniform (dr_unif dr) (get_continuous_bounds sp) n)));
    simpl in H2; [|discriminate]. destruct (forallb _ _); [|discriminate]. injection H2 as <-.
  rewrite map_length, combine_length. lia.
Qed.

Lemma value_functional c x v v' : constraint_value c x v -> constraint_value c x v' -> v = v'.
Proof.
  unfold constraint_value, denotes_constr. intros (f & A & B) (g & A' & B').
  destruct (c_constrain c); congruence.
Qed.
Lemma violates_infeasible cs c x : In c cs -> violates c x -> ~ feasible cs x.
Proof.
  intros I (v & A & B) F. destruct (F c I) as (v' & A' & B'). rewrite (value_functional _ _ _ _ A A') in B. qclra.
Qed.

Definition indicates (cs : list constr) : vec -> Qc -> Prop :=
  fun x i => (i = 1%Qc /\ forall c, In c cs -> satisfies c x) \/ (i = 0%Qc /\ exists c, In c cs /\ violates c x).
Lemma keep_valid_selects cs X I : Forall2 (indicates cs) X I -> selects (feasible cs) X (keep_valid X I).
Proof.
  unfold keep_valid. induction 1 as [|x i X I [(-> & H)|(-> & (c & H & V))] _ IH]; [constructor| |]; cbn [combine filter].
  - replace (qceq 1 q1) with true by reflexivity. cbn [map fst]. apply selects_take; auto.
  - replace (qceq 0 q1) with false by reflexivity. apply selects_skip; auto. eapply violates_infeasible; eauto.
Qed.
Lemma selects_app {A} (P : A -> Prop) l1 l1' l2 l2' : selects P l1 l1' -> selects P l2 l2' -> selects P (l1 ++ l2) (l1' ++ l2').
Proof.
  intros H H2. induction H; simpl; [exact H2|apply selects_take; auto|apply selects_skip; auto].
Qed.
Lemma selects_all {A} (P : A -> Prop) l l' : selects P l l' -> Forall P l'.
Proof. induction 1; auto. Qed.
Lemma selects_unique {A} (P : A -> Prop) l l1 : selects P l l1 -> forall l2, selects P l l2 -> l1 = l2.
Proof. induction 1; intros l2 H2; inversion H2; subst; try contradiction; auto; f_equal; auto. Qed.
Lemma selects_nil_none {A} (P : A -> Prop) l l' : selects P l l' -> Forall (fun a => ~ P a) l -> l' = [].
Proof. induction 1; intro F; inversion F; subst; auto. contradiction. Qed.

(** what one iteration keeps *)
Lemma iteration_keeps ds cs sp dr n V : design_space ds (Some cs) = Ok sp -> 0 < n ->
  (D <- get_samples_without_constraints sp dr n ;; I <- indicator_constraints sp D ;; Ok (keep_valid D I)) = Ok V ->
  exists D, get_samples_without_constraints sp dr n = Ok D /\ selects (feasible cs) D V.
Proof.
  intros DS N H. apply bind_ok in H as (D & HD & H). apply bind_ok in H as (I & HI & H). injection H as <-.
  exists D. split; auto. apply keep_valid_selects. eapply indicator_main; eauto.
  apply without_length in HD. destruct D; [simpl in HD; lia|discriminate].
Qed.

Lemma rejection_spec ds cs sp dr n : design_space ds (Some cs) = Ok sp ->
  forall fuel k Ds samples S, drawn_upto sp dr n k Ds -> selects (feasible cs) (concat Ds) samples ->
  rejection_loop fuel sp dr n k samples = Some (Ok S) ->
  exists m Ds' sel, drawn_upto sp dr n m Ds' /\ selects (feasible cs) (concat Ds') sel /\ S = firstn n sel /\ length S = n.
Proof.
  intros D. induction fuel as [|f IH]; intros k Ds samples S HD HS; cbn [rejection_loop]; [discriminate|].
  destruct (Nat.ltb_spec (length samples) n) as [L|L].
  - destruct (bind _ _) as [V|] eqn:E; [|discriminate].
    assert (N : 0 < n) by lia. destruct (iteration_keeps _ _ _ _ _ _ D N E) as (Dk & A1 & A2). intro H.
    apply (IH _ (Ds ++ [Dk]) _ _) in H; auto.
    + unfold drawn_upto. rewrite seq_S. apply Forall2_app; auto.
    + rewrite concat_app. simpl. rewrite app_nil_r. apply selects_app; auto.
  - intros [= <-]. exists k, Ds, samples. repeat split; auto. apply firstn_length_le. auto.
Qed.

Lemma constrained_returned ds cs sp dr n fuel S : design_space ds (Some cs) = Ok sp ->
  random_design fuel sp dr n = Some (Ok S) ->
  length S = n /\ Forall (feasible cs) S /\
  exists m Ds sel, drawn_upto sp dr n m Ds /\ selects (feasible cs) (concat Ds) sel /\ S = firstn n sel.
Proof.
  intros D H. unfold random_design in H.
  assert (C : has_constraints sp = true). { unfold has_constraints. apply design_space_constraints in D. rewrite D. auto. }
  rewrite C in H. apply (rejection_spec _ _ _ _ _ D fuel 0 []) in H; [|constructor|constructor].
  destruct H as (m & Ds & sel & A1 & A2 & -> & A4). split; [exact A4|]. split.
  - pose proof (selects_all _ _ _ A2) as A3. rewrite <- (firstn_skipn n sel) in A3. apply Forall_app in A3. apply A3.
  - exists m, Ds, sel. auto.
Qed.

Lemma iteration_ok ds cs sp dr n D : design_space ds (Some cs) = Ok sp -> 0 < n ->
  get_samples_without_constraints sp dr n = Ok D -> evaluates cs D ->
  exists V, (D <- get_samples_without_constraints sp dr n ;; I <- indicator_constraints sp D ;; Ok (keep_valid D I)) = Ok V /\
    selects (feasible cs) D V.
Proof.
  intros DS N H E. rewrite H. cbn [bind].
  assert (NE : D <> []). { apply without_length in H. destruct D; [simpl in H; lia|discriminate]. }
  destruct (proj2 (proj1 (indicator_main _ _ _ D DS NE)) E) as (I & HI). rewrite HI. cbn [bind].
  eexists; split; [reflexivity|]. apply keep_valid_selects. eapply indicator_main; eauto.
Qed.

Lemma rejection_completes ds cs sp dr n : design_space ds (Some cs) = Ok sp -> forall Ds k samples sel,
  Forall2 (fun j D => get_samples_without_constraints sp (dr j) n = Ok D) (seq k (length Ds)) Ds ->
  Forall (evaluates cs) Ds -> selects (feasible cs) (concat Ds) sel -> n <= length samples + length sel ->
  exists R, rejection_loop (S (length Ds)) sp dr n k samples = Some (Ok R).
Proof.
  intro DS. induction Ds as [|D Ds IH]; intros k samples sel HD HE HS L; cbn [rejection_loop].
  - simpl in HS. inversion HS; subst. simpl in L. destruct (Nat.ltb_spec (length samples) n); [lia|]. eauto.
  - destruct (Nat.ltb_spec (length samples) n) as [L1|L1]; [|eauto].
    simpl in HD. inversion HD; subst. inversion HE; subst.
    assert (N : 0 < n) by lia. destruct (iteration_ok _ _ _ _ _ _ DS N H2 H1) as (V & E1 & E2). rewrite E1.
    assert (exists sel', selects (feasible cs) (concat Ds) sel' /\ sel = V ++ sel') as (sel' & S1 & ->).
    { clear -HS E2. simpl in HS. revert sel HS. induction E2; intros sel HS; simpl in *.
      - exists sel. auto.
      - inversion HS; subst; [|contradiction]. destruct (IHE2 _ H4) as (s & A & ->). exists s. auto.
      - inversion HS; subst; [contradiction|]. destruct (IHE2 _ H4) as (s & A & ->). exists s. auto. }
    apply (IH (S k) (samples ++ V) sel'); auto. rewrite !app_length in *. lia.
Qed.

Lemma constrained_completes ds cs sp dr n m Ds sel : design_space ds (Some cs) = Ok sp ->
  drawn_upto sp dr n m Ds -> Forall (evaluates cs) Ds -> selects (feasible cs) (concat Ds) sel -> n <= length sel ->
  exists R, random_design (S m) sp dr n = Some (Ok R).
Proof.
  intros D HD HE HS L. unfold random_design.
  assert (C : has_constraints sp = true). { unfold has_constraints. apply design_space_constraints in D. rewrite D. auto. }
  rewrite C. assert (M : m = length Ds). { apply Forall2_len in HD. rewrite seq_length in HD. auto. }
  subst m. eapply rejection_completes; eauto.
Qed.

Lemma constrained_diverges ds cs sp dr n : design_space ds (Some cs) = Ok sp -> 0 < n ->
  (forall k, exists D, get_samples_without_constraints sp (dr k) n = Ok D /\ evaluates cs D /\ Forall (fun x => ~ feasible cs x) D) ->
  forall fuel, random_design fuel sp dr n = None.
Proof.
  intros D N H fuel. unfold random_design.
  assert (C : has_constraints sp = true). { unfold has_constraints. apply design_space_constraints in D. rewrite D. auto. }
  rewrite C. generalize 0 as k. induction fuel as [|f IH]; intro k; cbn [rejection_loop]; auto. simpl length.
  destruct (Nat.ltb_spec 0 n); [|lia]. destruct (H k) as (Dk & A1 & A2 & A3).
  destruct (iteration_ok _ _ _ _ _ _ D N A1 A2) as (V & -> & S). simpl.
  rewrite (selects_nil_none _ _ _ S A3). apply IH.
Qed.

Lemma rejection_more fuel sp dr n : forall k samples r, rejection_loop fuel sp dr n k samples = Some r ->
  forall fuel', fuel <= fuel' -> rejection_loop fuel' sp dr n k samples = Some r.
Proof.
  induction fuel as [|f IH]; intros k samples r; cbn [rejection_loop]; [discriminate|].
  intros H [|f'] L; [lia|]. cbn [rejection_loop]. destruct (Nat.ltb (length samples) n); auto.
  destruct (bind _ _); auto. apply IH; auto. lia.
Qed.

(** ---- C13 ---- *)
Lemma nat2q_ne0 n : 0 < n -> nat2q n <> 0%Qc.
Proof. intros H E. change 0%Qc with (nat2q 0) in E. apply nat2q_inj in E. lia. Qed.
Lemma nat2q_pos n : 0 < n -> (0 < nat2q n)%Qc.
Proof. intro H. change 0%Qc with (nat2q 0). apply nat2q_lt. auto. Qed.

Lemma linspace_grid lo hi r : 2 <= r -> linspace lo hi r = map (grid_value r (lo, hi)) (seq 0 r).
Proof. intro H. destruct r as [|[|r]]; try lia. simpl linspace. unfold grid_value. simpl fst. simpl snd. simpl Nat.sub. reflexivity. Qed.
Lemma linspace_length lo hi r : length (linspace lo hi r) = r.
Proof. destruct r as [|[|r]]; auto. unfold linspace. rewrite map_length, seq_length. auto. Qed.

Lemma grid_value_inj r b j j' : 2 <= r -> (fst b < snd b)%Qc -> grid_value r b j = grid_value r b j' -> j = j'.
Proof.
  intros R L E. unfold grid_value in E.
  assert (P : (0 < nat2q (r - 1))%Qc) by (apply nat2q_pos; lia).
  assert (Q : (0 < (snd b - fst b) / nat2q (r - 1))%Qc).
  { apply Qcdiv_pos; auto. revert L. generalize (fst b) (snd b). intros. qclra. }
  apply nat2q_inj. revert E Q. generalize ((snd b - fst b) / nat2q (r - 1))%Qc. generalize (nat2q j) (nat2q j') (fst b). intros a a' l w E Q.
  assert (Z : ((a - a') * w = 0)%Qc) by (replace ((a - a') * w)%Qc with ((l + a * w) - (l + a' * w))%Qc by ring; rewrite E; ring).
  apply Qcmult_integral in Z as [Z|Z]; [qclra|]. rewrite Z in Q. exfalso. qclra.
Qed.

Lemma product_in ls : forall t, In t (product ls) <-> Forall2 (fun x l => In x l) t ls.
Proof.
  induction ls as [|l ls IH]; intro t; simpl.
  - split; [intros [<-|[]]; constructor|]. intro H; inversion H; auto.
  - rewrite in_flat_map. split.
    + intros (x & I & H). apply in_map_iff in H as (t' & <- & H). constructor; auto. apply IH; auto.
    + intro H. inversion H as [|x ? t' ? I HT]; subst. exists x. split; auto. apply in_map. apply IH; auto.
Qed.
Lemma product_length ls r : Forall (fun l => length l = r) ls -> length (product ls) = r ^ length ls.
Proof.
  induction 1 as [|l ls L H IH]; [reflexivity|]. cbn [product length Nat.pow]. subst r. rewrite <- IH.
  generalize (product ls) as P. clear. intro P. unfold vec. induction l as [|x l IH]; simpl; auto. rewrite app_length, map_length. unfold vec in *. rewrite IH. auto.
Qed.
Lemma NoDup_app2 {A} (l l' : list A) : NoDup l -> NoDup l' -> (forall a, In a l -> ~ In a l') -> NoDup (l ++ l').
Proof.
  induction 1; simpl; intros; auto. constructor.
  - rewrite in_app_iff. intros [?|?]; auto. apply (H2 x); auto.
  - apply IHNoDup; auto.
Qed.
Lemma map_NoDup {A B} (f : A -> B) l : (forall a b, In a l -> In b l -> f a = f b -> a = b) -> NoDup l -> NoDup (map f l).
Proof.
  intros Hf. induction 1; simpl; constructor.
  - rewrite in_map_iff. intros (y & E & I). apply H. rewrite (Hf x y); simpl; auto.
  - apply IHNoDup. intros; apply Hf; simpl; auto.
Qed.
Lemma product_NoDup ls : Forall (@NoDup Qc) ls -> NoDup (product ls).
Proof.
  induction 1 as [|l ls L H IH]; simpl.
  - constructor; auto. constructor.
  - induction L as [|x l NI L IHl]; simpl; [constructor|]. apply NoDup_app2; auto.
    + apply map_NoDup; auto. intros a b _ _ [= ->]. auto.
    + intros t I1 I2. apply in_map_iff in I1 as (t1 & <- & _). apply in_flat_map in I2 as (y & Iy & I2).
      apply in_map_iff in I2 as (t2 & [= -> _] & _). auto.
Qed.

Lemma swap2_invol {A} (l : list A) : swap2 (swap2 l) = l.
Proof. destruct l as [|a [|b t]]; reflexivity. Qed.
Lemma swap2_length {A} (l : list A) : length (swap2 l) = length l.
Proof. destruct l as [|a [|b t]]; reflexivity. Qed.
Lemma Forall2_swap2 {A B} (R : A -> B -> Prop) l l' : Forall2 R l l' -> Forall2 R (swap2 l) (swap2 l').
Proof. intro H. inversion H as [|? ? ? ? H1 H2]; subst; simpl; auto. inversion H2; subst; auto. Qed.
Lemma Forall2_rev2 {A B} (R : A -> B -> Prop) l l' : Forall2 R l l' -> Forall2 R (rev l) (rev l').
Proof. induction 1; simpl; auto. apply Forall2_app; auto. Qed.
Lemma Forall_swap2 {A} (P : A -> Prop) l : Forall P l -> Forall P (swap2 l).
Proof. intro H. inversion H as [|? ? H1 H2]; subst; simpl; auto. inversion H2; subst; auto. Qed.

Lemma multigrid_in bs r M : multigrid bs r = Ok M ->
  (forall x, In x M <-> Forall2 (fun y b => In y (linspace (fst b) (snd b) r)) x bs) /\ length M = r ^ length bs /\
  (Forall (fun b => NoDup (linspace (fst b) (snd b) r)) bs -> NoDup M).
Proof.
  intro E. destruct bs as [|[lo hi] [|b2 bs]]; [discriminate| |].
  - injection E as <-. split; [|split].
    + intro x. rewrite in_map_iff. split.
      * intros (y & <- & I). repeat constructor; auto.
      * intro H. inversion H as [|y ? ? ? I H2]; subst. inversion H2; subst. exists y. auto.
    + rewrite map_length, linspace_length. simpl. lia.
    + intro H. inversion H; subst. apply map_NoDup; auto. intros a b _ _ [= ->]. auto.
  - set (bds := (lo, hi) :: b2 :: bs) in *.
    assert (E' : M = map (fun t => swap2 (rev t)) (product (rev (swap2 (map (fun '(lo, hi) => linspace lo hi r) bds))))).
    { unfold bds in *. injection E as <-. reflexivity. }
    clear E. subst M. set (axes := map _ bds) in *.
    assert (AX : forall x, Forall2 (fun y b => In y (linspace (fst b) (snd b) r)) x bds <-> Forall2 (fun y l => In y l) x axes).
    { intro x. unfold axes. clearbody bds. revert x. clear. induction bds as [|[a b] t IH]; intro x; simpl; split; intro H; inversion H; subst; constructor; auto; apply IH; auto. }
    split; [|split].
    + intro x. rewrite AX, in_map_iff. split.
      * intros (t & <- & I). apply product_in in I. apply Forall2_rev2 in I. rewrite rev_involutive in I.
        apply Forall2_swap2 in I. rewrite swap2_invol in I. auto.
      * intro H. exists (rev (swap2 x)). rewrite rev_involutive, swap2_invol. split; auto.
        apply product_in. apply Forall2_rev2, Forall2_swap2. auto.
    + rewrite map_length. rewrite (product_length _ r).
      * rewrite rev_length, swap2_length. unfold axes. rewrite map_length. auto.
      * apply Forall_rev, Forall_swap2. unfold axes. apply Forall_map, Forall_forall. intros [a b] _. apply linspace_length.
    + intro H. apply map_NoDup.
      * intros a b _ _ E. apply (f_equal swap2) in E. rewrite !swap2_invol in E. apply (f_equal (@rev Qc)) in E.
        rewrite !rev_involutive in E. auto.
      * apply product_NoDup, Forall_rev, Forall_swap2. unfold axes. apply Forall_map. eapply Forall_impl; [|exact H]. intros [a b]; auto.
Qed.

Lemma lattice_iff r bs : 2 <= r -> forall x,
  lattice_point r bs x <-> Forall2 (fun y b => In y (linspace (fst b) (snd b) r)) x bs.
Proof.
  intros R. unfold lattice_point. induction bs as [|[lo hi] bs IH]; intro x; split.
  - intros (js & L & _ & ->). destruct js; [|discriminate]. constructor.
  - intro H. inversion H. exists []. auto.
  - intros (js & L & F & ->). destruct js as [|j js]; [discriminate|]. injection L as L. inversion F; subst. simpl. constructor.
    + simpl. rewrite linspace_grid by auto. apply in_map. apply in_seq. lia.
    + apply IH. exists js. auto.
  - intro H. inversion H as [|y ? x' ? I H2]; subst. apply IH in H2 as (js & L & F & ->). simpl in I.
    rewrite linspace_grid in I by auto. apply in_map_iff in I as (j & <- & Ij). apply in_seq in Ij.
    exists (j :: js). simpl. repeat split; auto. constructor; auto. lia.
Qed.

Lemma linspace_NoDup lo hi r : 2 <= r -> (lo < hi)%Qc -> NoDup (linspace lo hi r).
Proof.
  intros R L. rewrite linspace_grid by auto. apply map_NoDup; [|apply seq_NoDup].
  intros a b _ _ E. eapply (grid_value_inj r (lo, hi)); eauto.
Qed.

Lemma grid_value_bounds r b j : 2 <= r -> j < r -> (fst b <= snd b)%Qc ->
  (fst b <= grid_value r b j)%Qc /\ (grid_value r b j <= snd b)%Qc.
Proof.
  intros R J L. unfold grid_value.
  assert (P : (0 < nat2q (r - 1))%Qc) by (apply nat2q_pos; lia).
  assert (Q : (0 <= (snd b - fst b) / nat2q (r - 1))%Qc).
  { apply Qcdiv_nonneg; auto. revert L. generalize (fst b) (snd b). intros. qclra. }
  assert (E : (nat2q (r - 1) * ((snd b - fst b) / nat2q (r - 1)) = snd b - fst b)%Qc) by (apply Qcdiv_mult, nat2q_ne0; lia).
  assert (A : (nat2q j <= nat2q (r - 1))%Qc) by (apply nat2q_le; lia).
  assert (B : (0 <= nat2q j)%Qc) by (change 0%Qc with (nat2q 0); apply nat2q_le; lia).
  revert Q E A B. generalize ((snd b - fst b) / nat2q (r - 1))%Qc. generalize (nat2q j) (nat2q (r - 1)) (fst b) (snd b). intros y m l h w Q E A B.
  pose proof (Qcmult_nonneg _ _ B Q). assert (0 <= (m - y) * w)%Qc by (apply Qcmult_nonneg; auto; qclra).
  assert (Z : ((m - y) * w = m * w - y * w)%Qc) by ring. rewrite Z, E in H0. split; qclra.
Qed.

Lemma grid_value_0 r b : grid_value r b 0 = fst b.
Proof. unfold grid_value. change (nat2q 0) with 0%Qc. ring. Qed.
Lemma grid_value_last r b : 2 <= r -> grid_value r b (r - 1) = snd b.
Proof. intros. unfold grid_value. rewrite Qcdiv_mult by (apply nat2q_ne0; lia). ring. Qed.

Lemma lattice_box r bs x : 2 <= r -> Forall (fun b => (fst b <= snd b)%Qc) bs -> lattice_point r bs x -> in_box bs x.
Proof.
  intros R H (js & L & F & ->). unfold in_box. revert js L F. induction H as [|b bs Hb H IH]; intros [|j js] L F; simpl in *; try discriminate; constructor.
  - inversion F; subst. apply grid_value_bounds; auto.
  - inversion F; subst. apply IH; auto.
Qed.
Lemma corner_lattice r bs x : 2 <= r -> corner bs x -> lattice_point r bs x.
Proof.
  intros R H. unfold lattice_point. induction H as [|y b x bs Hy H (js & L & F & ->)].
  - exists []. auto.
  - destruct Hy as [->| ->].
    + exists (0 :: js). simpl. rewrite grid_value_0. repeat split; auto. constructor; auto. lia.
    + exists ((r - 1) :: js). simpl. rewrite grid_value_last by auto. repeat split; auto. constructor; auto. lia.
Qed.

(** sizes *)
Lemma adjust_spec ds cs sp n : design_space ds cs = Ok sp -> bandit_free (kinds sp) -> 1 <= n ->
  let d := length (cbounds (kinds sp)) in 1 <= d ->
  exists r, adjust_init_points_count sp n = Ok (r, r ^ d) /\ 1 <= r /\ r ^ d <= n /\ n < (r + 1) ^ d.
Proof.
  intros D B N d Hd. unfold adjust_init_points_count. rewrite (get_continuous_dims_ok _ _ _ D B). cbn [bind].
  rewrite cdims_length. fold d. destruct (iroot_spec (Z.of_nat d) (Z.of_nat n) ltac:(lia) ltac:(lia)) as (r & -> & R1 & R2 & R3).
  cbn [bind]. exists (Z.to_nat r). split; auto. split; [lia|].
  assert (ER : r = Z.of_nat (Z.to_nat r)) by lia. rewrite ER in R2, R3.
  replace (Z.of_nat (Z.to_nat r) + 1)%Z with (Z.of_nat (Z.to_nat r + 1)) in R3 by lia.
  rewrite <- Nat2Z.inj_pow in R2, R3. lia.
Qed.

Lemma cbounds_all_cont ks : Forall (fun k => is_continuous k = true) ks -> length (cbounds ks) = length ks.
Proof.
  induction 1 as [|k ks H HF IH]; auto. unfold cbounds in *. simpl. rewrite app_length, IH. destruct k; simpl in *; auto; discriminate.
Qed.
Lemma all_cont_free ks : Forall (fun k => is_continuous k = true) ks -> bandit_free ks.
Proof. intro H. eapply Forall_impl; [|exact H]. intros []; simpl; auto; discriminate. Qed.

Lemma grid_rows ds sp dr n : design_space ds None = Ok sp -> Forall wf_kind (kinds sp) -> bandit_free (kinds sp) ->
  1 <= length (cbounds (kinds sp)) -> 1 <= n ->
  exists r X, 1 <= r /\ r ^ length (cbounds (kinds sp)) <= n /\ n < (r + 1) ^ length (cbounds (kinds sp)) /\
    multigrid (cbounds (kinds sp)) r = Ok X /\ length X = r ^ length (cbounds (kinds sp)) /\
    grid_design sp dr n = Ok (map (fun '(i, x) => final_row sp dr i x) (combine (seq 0 (length X)) X)).
Proof.
  intros D W B Hd N. destruct (adjust_spec _ _ _ n D B N Hd) as (r & A1 & A2 & A3 & A4).
  destruct (space_dim _ _ _ D B) as (E & E2 & E3).
  assert (exists X, multigrid (cbounds (kinds sp)) r = Ok X) as (X & HX).
  { destruct (cbounds (kinds sp)) as [|[lo hi] [|b bs]]; [simpl in Hd; lia| |]; eexists; reflexivity. }
  destruct (multigrid_in _ _ _ HX) as (X1 & X2 & X3).
  exists r, X. repeat split; auto.
  unfold grid_design. replace (has_constraints sp) with false.
  2:{ unfold has_constraints. apply design_space_constraints in D. rewrite D. auto. }
  rewrite A1. cbn [bind fst snd]. rewrite E2, HX. cbn [bind]. rewrite <- X2.
  apply (assign_final _ _ _ dr (length X) X D W B); auto.
  apply Forall_forall. intros x I. apply X1 in I. apply Forall2_len in I. auto.
Qed.

Lemma grid_main ds sp dr n : design_space ds None = Ok sp -> Forall (fun k => is_continuous k = true) (kinds sp) ->
  Forall wf_kind (kinds sp) -> kinds sp <> [] -> 1 <= n ->
  exists r M, 1 <= r /\ r ^ length (kinds sp) <= n /\ n < (r + 1) ^ length (kinds sp) /\
    grid_design sp dr n = Ok M /\ length M = r ^ length (kinds sp) /\
    (2 <= r ->
      (forall x, In x M <-> lattice_point r (get_continuous_bounds sp) x) /\
      (forall x, In x M -> in_box (get_continuous_bounds sp) x) /\
      (forall x, corner (get_continuous_bounds sp) x -> In x M) /\
      (Forall (fun b => (fst b < snd b)%Qc) (get_continuous_bounds sp) -> NoDup M)).
Proof.
  intros D C W NE N. pose proof (all_cont_free _ C) as B. pose proof (cbounds_all_cont _ C) as LC.
  destruct (space_dim _ _ _ D B) as (E & E2 & E3).
  destruct (grid_rows ds sp dr n D W B) as (r & X & R1 & R2 & R3 & HX & LX & HG); auto.
  { rewrite LC. destruct (kinds sp); simpl; [congruence|lia]. }
  destruct (multigrid_in _ _ _ HX) as (X1 & X2 & X3). rewrite LC in *.
  assert (EX : map (fun '(i, x) => final_row sp dr i x) (combine (seq 0 (length X)) X) = X).
  { assert (G : forall s, map (fun '(i, x) => final_row sp dr i x) (combine (seq s (length X)) X) = X).
    { assert (HL : Forall (fun x => length x = length (kinds sp)) X).
      { apply Forall_forall. intros x I. apply X1 in I. apply Forall2_len in I. congruence. }
      clear -C HL E. induction HL as [|x X Hx HL IH]; intro s; simpl; auto. rewrite IH. f_equal.
      unfold final_row. apply merge_all_cont; auto. rewrite frow_length, map_length, seq_length, E. unfold kinds. rewrite map_length. auto. }
    apply G. }
  rewrite EX in HG. rewrite E2. exists r, X. repeat split; auto.
  - intro I. apply lattice_iff; auto. apply X1; auto.
  - intro I. apply X1. apply lattice_iff; auto.
  - intros x I. apply (lattice_box r); auto. apply cbounds_wf; auto. apply lattice_iff; auto. apply X1; auto.
  - intros x I. apply X1. apply lattice_iff; auto. apply corner_lattice; auto.
  - intro H1. apply X3. eapply Forall_impl; [|exact H1]. intros [lo hi] L. apply linspace_NoDup; auto.
Qed.

(** C16 *)
Lemma grid_without_continuous ds sp dr n : design_space ds None = Ok sp -> bandit_free (kinds sp) ->
  existsb is_continuous (kinds sp) = false -> grid_design sp dr n = Raise ZeroDivisionError.
Proof.
  intros D B C. unfold grid_design. replace (has_constraints sp) with false.
  2:{ unfold has_constraints. apply design_space_constraints in D. rewrite D. auto. }
  unfold adjust_init_points_count. rewrite (get_continuous_dims_ok _ _ _ D B). cbn [bind].
  rewrite cdims_length, (cbounds_nil _ C). simpl length. rewrite iroot_zero_k by lia. reflexivity.
Qed.
Lemma grid_on_bandits ds sp dr n ia a arms : design_space ds None = Ok sp -> kinds sp = [KBandit ia (a :: arms)] ->
  2 <= sp_dim sp -> grid_design sp dr n = Raise IndexError.
Proof.
  intros D K L. unfold grid_design. replace (has_constraints sp) with false.
  2:{ unfold has_constraints. apply design_space_constraints in D. rewrite D. auto. }
  unfold adjust_init_points_count, get_continuous_dims, dims_of.
  unfold kinds in K. destruct (sp_xvars sp) as [|v [|v' t]]; try discriminate.
  destruct (sp_dim sp) as [|[|d]]; try lia. reflexivity.
Qed.
Lemma grid_with_continuous ds sp dr n : design_space ds None = Ok sp -> Forall wf_kind (kinds sp) -> bandit_free (kinds sp) ->
  existsb is_continuous (kinds sp) = true -> 1 <= n ->
  exists r M, grid_design sp dr n = Ok M /\ length M = r ^ length (cbounds (kinds sp)) /\
    r ^ length (cbounds (kinds sp)) <= n /\ n < (r + 1) ^ length (cbounds (kinds sp)) /\
    Forall (Forall2 user_value (kinds sp)) M.
Proof.
  intros D W B C N.
  assert (Hd : 1 <= length (cbounds (kinds sp))).
  { apply existsb_exists in C as (k & I & Hk). unfold cbounds. clear -I Hk. induction (kinds sp); simpl in *; [tauto|].
    rewrite app_length. destruct I as [->|I]; [destruct k; simpl in *; try discriminate; lia|]. specialize (IHl I). lia. }
  destruct (grid_rows ds sp dr n D W B Hd N) as (r & X & R1 & R2 & R3 & HX & LX & HG).
  exists r. eexists. repeat split; eauto.
  - rewrite map_length, combine_length, seq_length, LX. lia.
  - apply Forall_map, Forall_forall. intros [i x] I. eapply final_row_ok; eauto.
    apply in_combine_r in I. apply (proj1 (multigrid_in _ _ _ HX)) in I.
    pose proof (cbounds_wf _ W) as WB. unfold in_box. clear -I WB.
    induction I as [|y [lo hi] x bs Iy I IH]; constructor; inversion WB; subst; auto. simpl in *.
    destruct r as [|[|r]]; simpl in Iy; [tauto| |].
    + destruct Iy as [<-|[]]. split; auto. apply Qcle_refl.
    + change (In y (linspace lo hi (S (S r)))) in Iy. rewrite linspace_grid in Iy by lia.
      apply in_map_iff in Iy as (j & <- & Ij). apply in_seq in Ij. apply (grid_value_bounds (S (S r)) (lo, hi)); auto; lia.
Qed.

(** C14 *)
Lemma scale_row_box bs : Forall (fun b => (fst b <= snd b)%Qc) bs -> forall u, unit_row (length bs) u -> in_box bs (scale_row bs u).
Proof.
  induction 1 as [|[lo hi] bs Hb H IH]; intros u (L & F); destruct u as [|x u]; simpl in L; try discriminate; unfold scale_row; simpl.
  - constructor.
  - inversion F; subst. constructor; [|apply IH; split; auto]. simpl in *. destruct H2. split; qcnra.
Qed.

Lemma unit_design_ok ds sp dr U n : design_space ds None = Ok sp -> Forall wf_kind (kinds sp) -> bandit_free (kinds sp) ->
  length U = n -> Forall (unit_row (length (get_continuous_bounds sp))) U ->
  unit_design sp dr U n = Ok (map (fun '(i, u) => final_row sp dr i (scale_row (get_continuous_bounds sp) u)) (combine (seq 0 n) U)) /\
  Forall (Forall2 user_value (kinds sp)) (map (fun '(i, u) => final_row sp dr i (scale_row (get_continuous_bounds sp) u)) (combine (seq 0 n) U)).
Proof.
  intros D W B L HU. destruct (space_dim _ _ _ D B) as (E & E2 & _). rewrite E2 in *. split.
  - unfold unit_design. replace (has_constraints sp) with false.
    2:{ unfold has_constraints. apply design_space_constraints in D. rewrite D. auto. }
    rewrite E2. rewrite (assign_final _ _ _ dr n (map (scale_row (cbounds (kinds sp))) U) D W B).
    + f_equal. clear. generalize (seq 0 n). induction U; intros [|i l]; simpl; f_equal; auto.
    + rewrite map_length; auto.
    + apply Forall_map. eapply Forall_impl; [|exact HU]. intros u Hu. apply in_box_length. apply scale_row_box; auto. apply cbounds_wf; auto.
  - apply Forall_map, Forall_forall. intros [i u] I. eapply final_row_ok; eauto. apply scale_row_box; [apply cbounds_wf; auto|].
    rewrite Forall_forall in HU. apply HU. eapply in_combine_r; eauto.
Qed.

Lemma merge_nth ks : forall i row x k, length row = length ks -> length x = length (cbounds ks) ->
  forall j, nth_error (cdims i ks) k = Some j -> i <= j /\ nth_error (merge ks row x) (j - i) = nth_error x k.
Proof.
  induction ks as [|kd t IH]; intros i [|r row] x k L Lx j Hj; simpl in L; try discriminate.
  - destruct k; discriminate.
  - injection L as L. unfold cbounds in *. simpl in *. destruct (is_continuous kd) eqn:EC; simpl in *.
    + assert (exists lo hi, kd = KCont lo hi) as (lo & hi & ->) by (destruct kd; try discriminate; eauto).
      simpl in Lx. destruct x as [|y x]; [discriminate|]. injection Lx as Lx. destruct k as [|k]; simpl in *.
      * injection Hj as <-. rewrite Nat.sub_diag. split; auto.
      * destruct (IH _ row x k L Lx _ Hj) as (A & B). split; [lia|].
        replace (j - i) with (S (j - S i)) by lia. auto.
    + assert (Lx' : length x = length (concat (map (fun k => match k with KCont lo hi => [(lo, hi)] | _ => [] end) t))) by (destruct kd; try discriminate; auto).
      destruct (IH _ row x k L Lx' _ Hj) as (A & B). split; [lia|].
      replace (j - i) with (S (j - S i)) by lia. auto.
Qed.

Lemma scale_row_nth bs : forall u k lo hi x, nth_error bs k = Some (lo, hi) -> nth_error u k = Some x ->
  nth_error (scale_row bs u) k = Some (lo + x * (hi - lo))%Qc.
Proof.
  unfold scale_row. induction bs as [|[a b] bs IH]; intros [|y u] [|k] lo hi x H1 H2; simpl in *; try discriminate.
  - injection H1 as -> ->. injection H2 as ->. auto.
  - eapply IH; eauto.
Qed.

Lemma stratum_scale lo hi n j u : (lo < hi)%Qc -> (stratum lo hi n j (lo + u * (hi - lo))%Qc <-> stratum 0 1 n j u).
Proof.
  intros L. unfold stratum, Qcdiv. generalize (/ nat2q n)%Qc (nat2q j) (nat2q (S j)). intros w a b.
  assert (P : (0 < hi - lo)%Qc) by qclra. revert P. generalize (hi - lo)%Qc as d. intros d P.
  assert (A : forall y, (0 + y * ((1 - 0) * w))%Qc = (y * w)%Qc) by (intro; ring). rewrite !A.
  assert (B : forall y, (y * (d * w))%Qc = ((y * w) * d)%Qc) by (intro; ring). rewrite !B.
  generalize (a * w)%Qc (b * w)%Qc. intros e f. clear A B L. split; intros (H1 & H2); split.
  - destruct (Qclt_le_dec u e); auto. exfalso. assert (0 < (e - u) * d)%Qc by (apply Qcmult_pos; auto; qclra).
    assert (E : ((e - u) * d = e * d - u * d)%Qc) by ring. rewrite E in H. qclra.
  - destruct (Qclt_le_dec u f); auto. exfalso. assert (0 <= (u - f) * d)%Qc by (apply Qcmult_nonneg; [qclra|apply Qclt_le_weak; auto]).
    assert (E : ((u - f) * d = u * d - f * d)%Qc) by ring. rewrite E in H. qclra.
  - assert (0 <= (u - e) * d)%Qc by (apply Qcmult_nonneg; [qclra|apply Qclt_le_weak; auto]).
    assert (E : ((u - e) * d = u * d - e * d)%Qc) by ring. rewrite E in H. qclra.
  - assert (0 < (f - u) * d)%Qc by (apply Qcmult_pos; auto; qclra).
    assert (E : ((f - u) * d = f * d - u * d)%Qc) by ring. rewrite E in H. qclra.
Qed.

Lemma stratified_scale lo hi n us : (lo < hi)%Qc -> stratified 0 1 n us ->
  stratified lo hi n (map (fun u => lo + u * (hi - lo))%Qc us).
Proof.
  intros L H j J. destruct (H j J) as (i & (x & A1 & A2) & A3). exists i. split.
  - exists (lo + x * (hi - lo))%Qc. split; [rewrite nth_error_map, A1; reflexivity|]. apply stratum_scale; auto.
  - intros i' x' E S. rewrite nth_error_map in E. destruct (nth_error us i') as [u'|] eqn:Eu; [|discriminate].
    injection E as <-. apply stratum_scale in S; auto. eapply A3; eauto.
Qed.

Lemma unit_main ds sp dr U n : design_space ds None = Ok sp -> Forall wf_kind (kinds sp) -> bandit_free (kinds sp) ->
  length U = n -> Forall (unit_row (length (get_continuous_bounds sp))) U ->
  exists M dims, unit_design sp dr U n = Ok M /\ length M = n /\ Forall (Forall2 user_value (kinds sp)) M /\
    get_continuous_dims sp = Ok dims /\
    forall k j lo hi us, nth_error dims k = Some j -> nth_error (get_continuous_bounds sp) k = Some (lo, hi) ->
      column k U = map Some us ->
      column j M = map Some (map (fun u => lo + u * (hi - lo))%Qc us) /\
      ((lo < hi)%Qc -> stratified 0 1 n us -> stratified lo hi n (map (fun u => lo + u * (hi - lo))%Qc us)).
Proof.
  intros D W B L HU. destruct (unit_design_ok _ _ dr _ _ D W B L HU) as (E1 & E2).
  destruct (space_dim _ _ _ D B) as (E & EB & _). rewrite EB in *.
  eexists. exists (cdims 0 (kinds sp)). split; [exact E1|]. split; [rewrite map_length, combine_length, seq_length; lia|].
  split; [exact E2|]. split; [apply (get_continuous_dims_ok _ _ _ D B)|].
  intros k j lo hi us Hj Hb Hc. split.
  - clear E1 E2. subst n. generalize 0 as s. revert us Hc. induction HU as [|u U Hu HU IH]; intros us Hc s; destruct us as [|y us]; simpl in Hc; try discriminate; auto.
    injection Hc as Hy Hc. simpl. f_equal; [|apply IH; auto].
    destruct (merge_nth (kinds sp) 0 (frow dr s 0 (kinds sp) (map (dr_junk dr s) (seq 0 (sp_dim sp)))) (scale_row (cbounds (kinds sp)) u) k) with (j := j) as (_ & A2); auto.
    + rewrite frow_length, map_length, seq_length, E. unfold kinds. rewrite map_length. auto.
    + apply in_box_length. apply scale_row_box; auto. apply cbounds_wf; auto.
    + rewrite Nat.sub_0_r in A2. unfold final_row. rewrite A2. apply scale_row_nth; auto.
  - intros. apply stratified_scale; auto.
Qed.

(** C15 *)
Lemma initial_design_unknown fuel name sp dr U n : ~ In name ["random"; "sobol"; "grid"; "latin"]%string ->
  initial_design fuel name sp dr U n = Some (Raise ValueError).
Proof.
  intro H. unfold initial_design.
  destruct (String.eqb_spec name "random"); [exfalso; apply H; simpl; auto|].
  destruct (String.eqb_spec name "sobol"); [exfalso; apply H; simpl; auto|].
  destruct (String.eqb_spec name "grid"); [exfalso; apply H; simpl; auto|].
  destruct (String.eqb_spec name "latin"); [exfalso; apply H; simpl; auto 6|]. reflexivity.
Qed.
Lemma initial_design_constrained ds cs sp fuel dr U n : design_space ds (Some cs) = Ok sp ->
  (forall name, In name ["sobol"; "grid"; "latin"]%string -> initial_design fuel name sp dr U n = Some (Raise InvalidConfigError)) /\
  (forall name M, initial_design fuel name sp dr U n = Some (Ok M) -> length M = n /\ Forall (feasible cs) M).
Proof.
  intros D. assert (C : has_constraints sp = true). { unfold has_constraints. pose proof (design_space_constraints _ _ _ D) as E. rewrite E. auto. }
  unfold initial_design, unit_design, grid_design. rewrite C. split.
  - intros name [<-|[<-|[<-|[]]]]; reflexivity.
  - intros name M. destruct (String.eqb name "random").
    + intro H. apply (constrained_returned _ _ _ _ _ _ _ D) in H. tauto.
    + destruct (String.eqb name "sobol"); [discriminate|]. destruct (String.eqb name "grid"); [discriminate|].
      destruct (String.eqb name "latin"); discriminate.
Qed.

(** C09 *)
Definition dr_witness (junk : Qc) : draws := mk_draws (fun _ _ => 1) (fun _ _ => 0%Qc) (fun _ _ => junk).
Lemma two_bandits_design junk : 
  get_samples_without_constraints (the_space ds_two_bandits None) (dr_witness junk) 1 = Ok [[z 3; z 7; z 8; junk]].
Proof. vm_compute. reflexivity. Qed.

Lemma two_bandits_witness :
  exists sp, design_space ds_two_bandits None = Ok sp /\ Forall wf_kind (kinds sp) /\
    (forall junk, exists dr row, unit_draws (dr_unif dr) /\ get_samples_without_constraints sp dr 1 = Ok [row] /\
       nth_error row 3 = Some junk /\ ~ design_row (kinds sp) row) /\
    (forall x, length x = model_dimensionality sp -> exists a b, round_optimum sp [x] = Ok [a; b]).
Proof.
  exists (the_space ds_two_bandits None). split; [vm_compute; reflexivity|]. split; [|split].
  - vm_compute the_space. repeat (apply Forall_cons || apply Forall_nil); (split; [reflexivity|]); (split; [discriminate|]);
      simpl; intros a b [<-|[<-|[]]] [<-|[<-|[]]]; reflexivity.
  - intro junk. exists (dr_witness junk), [z 3; z 7; z 8; junk]. split; [|split; [apply two_bandits_design|split; [reflexivity|]]].
    + intros k i. simpl. split; [apply Qcle_refl|]. qcle_dec.
    + assert (EK : kinds (the_space ds_two_bandits None) = [KBandit true [[z 1; z 2]; [z 3; z 4]]; KBandit true [[z 5; z 6]; [z 7; z 8]]]) by reflexivity.
      intro H. rewrite EK in H. unfold design_row in H. remember [z 3; z 7; z 8; junk] as row eqn:ER. inversion H as [|k ks b r I1 H2 E1 E2]; subst row.
      simpl in I1. destruct I1 as [<-|[<-|[]]]; 
        apply (f_equal (fun l => qceq (nth 0 l 0%Qc) (z 3) && qceq (nth 1 l 0%Qc) (z 7))) in E2; vm_compute in E2; discriminate.
  - intros x Hx. destruct x as [|x0 [|x1 [|x2 [|x3 [|x4 t]]]]]; try discriminate.
    unfold round_optimum. cbn [the_space].
    assert (G : forall arms v, length v = 2 -> arms <> [] -> Forall (fun a => length a = 2) arms -> exists r, round_bandit arms v = Ok r /\ length r = 2).
    { intros arms v L NE F. unfold round_bandit.
      assert (exists dd, mapM (fun a => d <- bcast Qcminus a v ;; Ok (qsum (map (fun x => (x * x)%Qc) d))) arms = Ok dd /\ length dd = length arms) as (dd & -> & LD).
      { clear NE. induction F as [|a arms La F (dd & E & LD)]; [exists []; auto|]. simpl. unfold bcast at 1. rewrite La, L. simpl. rewrite E. simpl. eexists; split; eauto. simpl; auto. }
      cbn [bind]. destruct (argmin dd) as [i|] eqn:EA.
      - destruct (argmin_spec dd i EA) as (dv & Hi & _). destruct (nth_error arms i) as [r|] eqn:En.
        + exists r. unfold get, vec in *. rewrite En. split; auto. rewrite Forall_forall in F. apply F. eapply nth_error_In; eauto.
        + apply nth_error_None in En. exfalso. assert (i < length dd) by (apply nth_error_Some; congruence). lia.
      - destruct dd; [destruct arms; [congruence|discriminate]|discriminate]. }
    destruct (G [[z 1; z 2]; [z 3; z 4]] [x0; x1]) as (a & Ea & La); [reflexivity|discriminate|repeat constructor|].
    destruct (G [[z 5; z 6]; [z 7; z 8]] [x2; x3]) as (b & Eb & Lb); [reflexivity|discriminate|repeat constructor|].
    exists a, b.
    assert (EX : sp_xvars (the_space ds_two_bandits None) =
      [mk_xvar "p" (KBandit true [[z 1; z 2]; [z 3; z 4]]) 2 [0] [0]; mk_xvar "q" (KBandit true [[z 5; z 6]; [z 7; z 8]]) 2 [1] [1]]) by reflexivity.
    rewrite EX. cbn [round_from]. unfold var_round. cbn [x_kind x_mdim slice firstn skipn Nat.add].
    unfold slice. cbn [firstn skipn]. rewrite Ea. cbn [bind]. rewrite Eb. cbn [bind concat_rounded all_R1 all_R2 forallb].
    rewrite La, Lb. reflexivity.
Qed.

Lemma single_bandit_main ds cs sp isarr arms dr n x :
  design_space ds cs = Ok sp -> kinds sp = [KBandit isarr arms] -> wf_kind (KBandit isarr arms) ->
  sp_dim sp = total_width (kinds sp) -> unit_draws (dr_unif dr) -> length x = model_dimensionality sp ->
  (exists M, get_samples_without_constraints sp dr n = Ok M /\ length M = n /\ Forall (fun r => In r arms) M) /\
  (exists a, round_optimum sp [x] = Ok [a] /\ In a arms).
Proof.
  intros D K W L U LX.
  assert (WF : Forall wf_kind (kinds sp)) by (rewrite K; auto).
  split.
  - destruct (random_main _ _ _ dr n D WF) as (M & A1 & A2 & A3); auto; [right; eauto|].
    exists M. repeat split; auto. rewrite K in A3. eapply Forall_impl; [|exact A3].
    intros r H. inversion H as [|k ks b r' I H2 E1 E2]; subst. inversion H2; subst. rewrite app_nil_r. auto.
  - destruct (round_in_domain _ _ _ x D WF) as (r & A1 & A2); auto; [right; eauto|].
    exists r. split; auto. rewrite K in A2. inversion A2 as [|k ks b r' I H2 E1 E2]; subst. inversion H2; subst. rewrite app_nil_r. auto.
Qed.

Lemma random_unconstrained ds sp dr n fuel :
  design_space ds None = Ok sp -> Forall wf_kind (kinds sp) -> sampleable sp -> unit_draws (dr_unif (dr 0)) ->
  exists M, random_design fuel sp dr n = Some (Ok M) /\ length M = n /\ Forall (design_row (kinds sp)) M.
Proof.
  intros D W S U. destruct (random_main _ _ _ (dr 0) n D W S U) as (M & A1 & A2 & A3). exists M.
  unfold random_design, has_constraints. pose proof (design_space_constraints _ _ _ D) as E. rewrite E, A1. auto.
Qed.

Lemma random_more fuel fuel' sp dr n r : random_design fuel sp dr n = Some r -> fuel <= fuel' -> random_design fuel' sp dr n = Some r.
Proof. unfold random_design. destruct (has_constraints sp); auto. intros. eapply rejection_more; eauto. Qed.

Lemma cbounds_filter ks : length (cbounds ks) = length (filter is_continuous ks).
Proof. induction ks as [|k t IH]; simpl; auto. unfold cbounds in *. simpl. rewrite app_length, IH. destruct k; simpl; auto. Qed.

Lemma grid_with_continuous_main ds sp dr n : design_space ds None = Ok sp -> Forall wf_kind (kinds sp) -> bandit_free (kinds sp) ->
  existsb is_continuous (kinds sp) = true -> 1 <= n ->
  exists r M, let d := length (filter is_continuous (kinds sp)) in
    grid_design sp dr n = Ok M /\ length M = r ^ d /\ r ^ d <= n /\ n < (r + 1) ^ d /\
    Forall (Forall2 user_value (kinds sp)) M.
Proof.
  intros D W B C N. destruct (grid_with_continuous ds sp dr n D W B C N) as (r & M & H). exists r, M.
  rewrite cbounds_filter in H. exact H.
Qed.

Lemma rejection_example :
  let c := mk_constr None (Some (fun x => Ok (nth 0 x 0 - q 1 2)%Qc)) in
  let c' := mk_constr None (Some (fun x => Ok (z 1)%Qc)) in
  let dr := fun k => mk_draws (fun v i => v + i) (fun _ i => if Nat.eqb (k + i) 1 then q 1 3 else q 1 1) (fun _ _ => z 99) in
  random_design 9 (the_space ds_mixed (Some [c])) dr 2 = Some (Ok [[z 0; z 0; z 0; z 4]; [z 0; z 0; z 2; z 1]]) /\
  random_design 9 (the_space ds_mixed (Some [c'])) dr 2 = None /\
  (forall k, exists D, get_samples_without_constraints (the_space ds_mixed (Some [c'])) (dr k) 1 = Ok D /\
     evaluates [c'] D /\ Forall (fun x => ~ feasible [c'] x) D).
Proof.
  intros c c' dr. split; [vmeq|]. split; [vmeq|]. intro k.
  destruct (random_main ds_mixed (Some [c']) (the_space ds_mixed (Some [c'])) (dr k) 1) as (D & A & _ & _).
  - vm_compute. reflexivity.
  - repeat constructor; simpl; try discriminate; qcle_dec.
  - left. repeat constructor.
  - intros j i. simpl. destruct (Nat.eqb (k + i) 1); split; qcle_dec.
  - exists D. split; auto. split.
    + intros c0 x [<-|[]] _. exists (z 1). exists (fun x => Ok (z 1)%Qc). split; reflexivity.
    + apply Forall_forall. intros x _ F. destruct (F c' (or_introl eq_refl)) as (v & (f & E & Ev) & L).
      unfold denotes_constr in E. simpl in E. injection E as <-. injection Ev as <-. revert L. apply Qclt_not_le. qclt_dec.
Qed.

Lemma unit_example :
  let U := [[q 3 4; q 1 4]; [q 1 4; q 3 4]] in
  exists sp, design_space ds_mixed None = Ok sp /\ bandit_free (kinds sp) /\
    Forall (unit_row (length (get_continuous_bounds sp))) U /\ get_continuous_dims sp = Ok [0; 1] /\
    stratified 0 1 2 [q 3 4; q 1 4] /\
    unit_design sp (mk_draws (fun v i => v + i) (fun _ _ => z 0) (fun _ _ => z 99)) U 2 =
      Ok [[q 5 4; q (-1) 4; z 2; z 1]; [q (-1) 4; q 5 4; z 0; z 4]].
Proof.
  intro U. exists (the_space ds_mixed None). split; [vm_compute; reflexivity|]. split; [repeat constructor|].
  split. { unfold U. repeat constructor; try qcle_dec. }
  split; [vmeq|]. split; [|vmeq].
  intros [|[|j]] J; [exists 1|exists 0|lia].
  - split. exists (q 1 4). split; [reflexivity|]. split; [qcle_dec|qclt_dec].
    intros [|[|i]] x E (S1 & S2); simpl in E; try discriminate; auto.
    + injection E as <-. exfalso. revert S2. apply Qcle_not_lt. qcle_dec.
    + destruct i; discriminate.
  - split. exists (q 3 4). split; [reflexivity|]. split; [qcle_dec|qclt_dec].
    intros [|[|i]] x E (S1 & S2); simpl in E; try discriminate; auto.
    + injection E as <-. exfalso. revert S1. apply Qclt_not_le. qclt_dec.
    + destruct i; discriminate.
Qed.
