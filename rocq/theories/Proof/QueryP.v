(** Proofs about the queries of a design space (C05, C98). *)
From Coq Require Import String List ZArith QArith Qcanon Bool Lia FinFun.
From Verif.Model Require Import Py Space.
From Verif.Spec Require Import SpaceSpec QuerySpec Examples.
From Verif.Proof Require Import Num Dec SpaceP RoundP ConstructP SpaceMain DesignP.
Import ListNotations.
Local Open Scope nat_scope.

(** ---- bounds are attained ---- *)
Definition attained (k : kind) (bs : list (Qc * Qc)) : Prop :=
  forall j lo hi, nth_error bs j = Some (lo, hi) ->
    (exists b, valid_block k b /\ nth_error b j = Some hi) /\
    (~ one_category k -> exists b, valid_block k b /\ nth_error b j = Some lo).

Lemma unit_row_nth n i j : i < n -> j < n -> nth_error (set_nth (repeat q0 n) i q1) j = Some (if Nat.eqb j i then q1 else q0).
Proof. intros I J. destruct (one_hot_set_nth n i I) as (_ & _ & H). rewrite (H j J). reflexivity. Qed.

Lemma py_min_in l m : py_min l = Ok m -> In m l /\ forall x, In x l -> (m <= x)%Qc.
Proof.
  destruct l as [|a l]; [discriminate|]. intros [= <-]. destruct (lmin_le a l) as (A & B & C). split.
  - destruct C as [->|C]; [now left|now right].
  - intros x [<-|X]; auto.
Qed.
Lemma py_max_in l m : py_max l = Ok m -> In m l /\ forall x, In x l -> (x <= m)%Qc.
Proof.
  destruct l as [|a l]; [discriminate|]. intros [= <-]. destruct (lmax_ge a l) as (A & B & C). split.
  - destruct C as [->|C]; [now left|now right].
  - intros x [<-|X]; auto.
Qed.

Lemma column_in (arms : mat) j : forall col, mapM (fun r => get r j) arms = Ok col ->
  forall x, In x col -> exists a, In a arms /\ nth_error a j = Some x.
Proof.
  induction arms as [|a t IH]; simpl; intros col H x X.
  - injection H as <-. destruct X.
  - apply bind_ok in H as (y & Hy & H). apply bind_ok in H as (ys & Hys & H). injection H as <-.
    destruct X as [<-|X].
    + exists a. split; [now left|]. unfold get in Hy. destruct (nth_error a j); [congruence|discriminate].
    + destruct (IH _ Hys _ X) as (b & Hb & N). exists b. split; [now right|exact N].
Qed.
Lemma column_of (arms : mat) j : forall col, mapM (fun r => get r j) arms = Ok col ->
  forall a x, In a arms -> nth_error a j = Some x -> In x col.
Proof.
  induction arms as [|a t IH]; simpl; intros col H b x I N; [destruct I|]. destruct I as [<-|I].
  - apply bind_ok in H as (y & Hy & H). apply bind_ok in H as (ys & Hys & H). injection H as <-.
    unfold get in Hy. rewrite N in Hy. injection Hy as <-. now left.
  - apply bind_ok in H as (y & Hy & H). apply bind_ok in H as (ys & Hys & H). injection H as <-.
    right. eapply IH; eauto.
Qed.

Lemma bandit_columns arms w : arms <> [] -> (forall a, In a arms -> length a = w) -> forall n s, s + n <= w ->
  exists bs, mapM (fun d => a <- mapM (fun r => get r d) arms ;; lo <- py_min a ;; hi <- py_max a ;; Ok (lo, hi)) (seq s n) = Ok bs /\
    length bs = n /\
    forall j lo hi, nth_error bs j = Some (lo, hi) ->
      (exists a, In a arms /\ nth_error a (s + j) = Some lo) /\ (exists a, In a arms /\ nth_error a (s + j) = Some hi) /\
      forall a x, In a arms -> nth_error a (s + j) = Some x -> (lo <= x)%Qc /\ (x <= hi)%Qc.
Proof.
  intros NE LW. induction n as [|n IH]; intros s L; cbn [seq mapM].
  - exists []. repeat split; auto; destruct j; discriminate.
  - assert (C : exists col, mapM (fun r => get r s) arms = Ok col).
    { clear IH NE. induction arms as [|a t IHt]; simpl; [eauto|]. unfold get at 1.
      destruct (nth_error a s) eqn:N; [|apply nth_error_None in N; rewrite (LW a (or_introl eq_refl)) in N; lia].
      simpl. destruct IHt as (col & ->); [intros b Hb; apply LW; now right|]. simpl. eauto. }
    destruct C as (col & HC). rewrite HC. cbn [bind].
    destruct (py_min col) as [lo|] eqn:PM.
    2:{ destruct col; [|discriminate]. destruct arms as [|a t]; [congruence|]. cbn in HC. apply bind_ok in HC as (? & _ & HC). apply bind_ok in HC as (? & _ & HC). discriminate. }
    cbn [bind]. destruct (py_max col) as [hi|] eqn:PX.
    2:{ destruct col; discriminate. }
    cbn [bind]. destruct (IH (S s) ltac:(lia)) as (bs & -> & LB & HB). cbn [bind].
    eexists. split; [reflexivity|]. split; [simpl; now rewrite LB|].
    destruct (py_min_in _ _ PM) as (M1 & M2). destruct (py_max_in _ _ PX) as (X1 & X2).
    intros [|j] lo' hi' H; cbn [nth_error] in H.
    + injection H as <- <-. rewrite Nat.add_0_r. split; [apply (column_in _ _ _ HC _ M1)|]. split; [apply (column_in _ _ _ HC _ X1)|].
      intros a x Ha Hx. pose proof (column_of _ _ _ HC _ _ Ha Hx). auto.
    + replace (s + S j) with (S s + j) by lia. apply HB. exact H.
Qed.

Lemma Forall2_nth {A B} (R : A -> B -> Prop) : forall l l', length l = length l' ->
  (forall j a b, nth_error l j = Some a -> nth_error l' j = Some b -> R a b) -> Forall2 R l l'.
Proof.
  induction l as [|a l IH]; intros [|b l'] L H; try discriminate; constructor.
  - apply (H 0); reflexivity.
  - apply IH; [now injection L|]. intros j. apply (H (S j)).
Qed.

Lemma var_bounds_exact v : xv_ok v -> wf_kind (x_kind v) ->
  exists bs, var_bounds v = Ok bs /\ length bs = x_mdim v /\
    (forall b, valid_block (x_kind v) b -> Forall2 within b bs) /\ attained (x_kind v) bs.
Proof.
  intros O W. destruct (is_bandit (x_kind v)) eqn:BD.
  - unfold xv_ok in O. unfold var_bounds. destruct (x_kind v) as [| |isarr arms|] eqn:E; try discriminate. simpl in O.
    destruct W as (_ & NE & LW). set (w := x_mdim v) in *.
    assert (LW' : forall a, In a arms -> length a = w).
    { intros a Ha. destruct arms as [|a0 t]; [congruence|]. rewrite O. apply LW; [exact Ha|now left]. }
    destruct (bandit_columns arms w NE LW' w 0 ltac:(lia)) as (bs & H & LB & HB).
    exists bs. split; [exact H|]. split; [exact LB|]. split.
    + intros b Hb. apply Forall2_nth; [rewrite LB; apply LW', Hb|]. intros j x [lo hi] Nx Nb. destruct (HB _ _ _ Nb) as (_ & _ & Q). exact (Q b x Hb Nx).
    + intros j lo hi N. destruct (HB _ _ _ N) as (L & U & _). split; [exact U|]. intros _. exact L.
  - destruct (var_bounds_spec v O W BD) as (bs & H & L & I). exists bs. split; [exact H|]. split; [exact L|]. split; [exact I|].
    unfold var_bounds in H. unfold xv_ok in O. destruct (x_kind v) as [lo hi|vals| |cats] eqn:E; try discriminate.
    + injection H as <-. simpl in W. intros [|j] l h N; [|destruct j; discriminate]. injection N as <- <-. split; [|intros _].
      * exists [hi]. split; [exists hi; repeat split; auto; qclra|reflexivity].
      * exists [lo]. split; [exists lo; repeat split; auto; qclra|reflexivity].
    + apply bind_ok in H as (a & Ha & H). apply bind_ok in H as (b & Hb & H). injection H as <-.
      destruct (py_min_in _ _ Ha) as (A1 & _). destruct (py_max_in _ _ Hb) as (B1 & _).
      intros [|j] l h N; [|destruct j; discriminate]. injection N as <- <-. split; [|intros _].
      * exists [b]. split; [exists b; auto|reflexivity].
      * exists [a]. split; [exists a; auto|reflexivity].
    + injection H as <-. simpl in O. rewrite O in *. intros j l h N.
      assert (J : j < length cats) by (rewrite <- (repeat_length (q0, q1) (length cats)); apply nth_error_Some; congruence).
      assert ((l, h) = (q0, q1)) as Q by (apply nth_error_In, repeat_spec in N; exact N). injection Q as -> ->. split.
      * exists (set_nth (repeat q0 (length cats)) j q1). split; [exists j; apply one_hot_set_nth, J|]. rewrite unit_row_nth by auto. now rewrite Nat.eqb_refl.
      * intro NO. assert (K : 2 <= length cats) by (destruct cats as [|c [|d t]]; simpl in *; try lia; destruct NO; now exists c).
        set (i := if Nat.eqb j 0 then 1 else 0).
        assert (Hi : i < length cats) by (unfold i; destruct (Nat.eqb j 0); lia).
        exists (set_nth (repeat q0 (length cats)) i q1). split; [exists i; apply one_hot_set_nth, Hi|]. rewrite unit_row_nth by auto.
        unfold i. destruct (Nat.eqb_spec j 0) as [->|NZ]; [reflexivity|]. destruct (Nat.eqb_spec j 0); [contradiction|reflexivity].
Qed.

Lemma design_point_exists ks : Forall wf_kind ks -> exists z, design_point ks z.
Proof.
  induction 1 as [|k ks W _ (z & Z)]; [exists []; constructor|].
  assert (exists b, valid_block k b) as (b & B).
  { destruct k as [lo hi|vals|isarr arms|cats]; simpl in *.
    - exists [lo], lo. repeat split; auto; qclra.
    - destruct vals as [|a t]; [congruence|]. exists [a], a. split; [reflexivity|now left].
    - destruct W as (_ & N & _). destruct arms as [|a t]; [congruence|]. exists a. now left.
    - destruct cats as [|c t]; [congruence|]. exists (set_nth (repeat q0 (length (c :: t))) 0 q1), 0. apply one_hot_set_nth. simpl; lia. }
  exists (b ++ z). now constructor.
Qed.

Lemma get_bounds_exact vs : Forall xv_ok vs -> Forall wf_kind (map x_kind vs) ->
  exists bss, mapM var_bounds vs = Ok bss /\ length (concat bss) = list_sum (map x_mdim vs) /\
    (forall z, design_point (map x_kind vs) z -> Forall2 within z (concat bss)) /\
    (forall j lo hi, nth_error (concat bss) j = Some (lo, hi) ->
      (exists z, design_point (map x_kind vs) z /\ nth_error z j = Some hi) /\
      (Forall (fun k => ~ one_category k) (map x_kind vs) -> exists z, design_point (map x_kind vs) z /\ nth_error z j = Some lo)).
Proof.
  induction 1 as [|v vs O Os IH]; intro W; simpl in *.
  - exists []. split; [reflexivity|]. split; [reflexivity|]. split; [intros z H; inversion H; constructor|]. intros [|j]; discriminate.
  - inversion W as [|? ? W1 W2]; subst. destruct (var_bounds_exact v O W1) as (bs & E & L & I & A).
    destruct (IH W2) as (bss & Es & Ls & Is & As). rewrite E. cbn [bind]. rewrite Es. cbn [bind].
    exists (bs :: bss). split; [reflexivity|]. simpl. split; [rewrite app_length; lia|]. split.
    + intros z Hz. inversion Hz; subst. apply Forall2_app; auto.
    + intros j lo hi N. destruct (Nat.ltb_spec j (length bs)) as [J|J].
      * rewrite nth_error_app1 in N by exact J. destruct (A _ _ _ N) as (U & D). destruct (design_point_exists _ W2) as (z & Z).
        split.
        -- destruct U as (b & B & NB). exists (b ++ z). split; [now constructor|]. rewrite nth_error_app1; [exact NB|]. apply nth_error_Some. congruence.
        -- intro NO. inversion NO as [|? ? N1 N2]; subst. destruct (D N1) as (b & B & NB). exists (b ++ z). split; [now constructor|].
           rewrite nth_error_app1; [exact NB|]. apply nth_error_Some. congruence.
      * rewrite nth_error_app2 in N by exact J. destruct (As _ _ _ N) as (U & D).
        destruct (design_point_exists [x_kind v]) as (b & B); [repeat constructor; exact W1|].
        inversion B as [|? ? b0 r0 Hb Hr]; subst. inversion Hr; subst. clear B Hr.
        assert (LB : length b0 = length bs) by (apply I in Hb; apply Forall2_len in Hb; exact Hb).
        split.
        -- destruct U as (z & Z & NZ). exists (b0 ++ z). split; [now constructor|]. rewrite nth_error_app2, LB by lia. exact NZ.
        -- intro NO. inversion NO as [|? ? N1 N2]; subst. destruct (D N2) as (z & Z & NZ). exists (b0 ++ z). split; [now constructor|].
           rewrite nth_error_app2, LB by lia. exact NZ.
Qed.

Theorem bounds_exact ds cs sp : design_space ds cs = Ok sp -> Forall wf_kind (kinds sp) ->
  exists bs, get_bounds sp = Ok bs /\ length bs = model_dimensionality sp /\
    (forall z, design_point (kinds sp) z -> Forall2 (fun x b => (fst b <= x)%Qc /\ (x <= snd b)%Qc) z bs) /\
    (forall j lo hi, nth_error bs j = Some (lo, hi) ->
      (exists z, design_point (kinds sp) z /\ nth_error z j = Some hi) /\
      (Forall (fun k => ~ one_category k) (kinds sp) -> exists z, design_point (kinds sp) z /\ nth_error z j = Some lo)).
Proof.
  intros D W. pose proof (design_space_facts _ _ _ D) as F.
  destruct (get_bounds_exact _ (sf_ok _ F) W) as (bss & E & L & I & A). exists (concat bss).
  split; [unfold get_bounds; rewrite E; reflexivity|]. split; [exact L|]. split; [exact I|exact A].
Qed.

(** ---- positions ---- *)
Fixpoint positions (p : kind -> bool) (i : nat) (ks : list kind) : list nat :=
  match ks with [] => [] | k :: t => (if p k then [i] else []) ++ positions p (S i) t end.
Lemma mapM_pos (p : kind -> bool) vs : forall pre,
  exists ls, mapM (fun i => v <- get (pre ++ vs) i ;; Ok (if p (x_kind v) then [i] else [])) (seq (length pre) (length vs)) = Ok ls /\
    concat ls = positions p (length pre) (map x_kind vs).
Proof.
  induction vs as [|v t IH]; intros pre; simpl; [eexists; split; reflexivity|].
  unfold get at 1. rewrite nth_error_app2, Nat.sub_diag by lia. simpl. destruct (IH (pre ++ [v])) as (ls & H & L).
  rewrite app_length in H, L. simpl in H, L. rewrite Nat.add_1_r in H, L. rewrite <- app_assoc in H. simpl in H. rewrite H. simpl. eexists. split; [reflexivity|].
  simpl. now rewrite L.
Qed.
Lemma dims_positions p sp : sp_dim sp = length (sp_xvars sp) -> dims_of p sp = Ok (positions p 0 (kinds sp)).
Proof.
  intros E. unfold dims_of. rewrite E. destruct (mapM_pos p (sp_xvars sp) []) as (ls & H & L). simpl in H, L. rewrite H. cbn [bind]. now rewrite L.
Qed.
Lemma positions_ge p ks : forall i j, In j (positions p i ks) -> i <= j.
Proof.
  induction ks as [|k t IH]; simpl; intros i j H; [destruct H|]. apply in_app_or in H as [H|H].
  - destruct (p k); [destruct H as [<-|[]]; lia|destruct H].
  - apply IH in H. lia.
Qed.
Lemma positions_increasing p ks : forall i, increasing (positions p i ks).
Proof.
  induction ks as [|k t IH]; intro i; simpl; [exact Logic.I|]. destruct (p k); simpl; [|apply IH].
  specialize (IH (S i)). destruct (positions p (S i) t) as [|b l] eqn:E; [exact Logic.I|]. split; [|exact IH].
  assert (In b (positions p (S i) t)) by (rewrite E; now left). apply positions_ge in H. lia.
Qed.
Lemma positions_in p ks : forall i j, In j (positions p i ks) <-> exists n k, j = i + n /\ nth_error ks n = Some k /\ p k = true.
Proof.
  induction ks as [|k t IH]; intros i j; simpl.
  - split; [intros []|intros ([|n] & k & _ & H & _); discriminate].
  - rewrite in_app_iff, IH. split.
    + intros [H|(n & k' & -> & H & P)].
      * destruct (p k) eqn:PK; [|destruct H]. destruct H as [<-|[]]. exists 0, k. repeat split; auto.
      * exists (S n), k'. repeat split; auto. lia.
    + intros ([|n] & k' & -> & H & P).
      * injection H as ->. left. rewrite P. left. lia.
      * right. exists n, k'. repeat split; auto. lia.
Qed.
Lemma positions_spec (p : kind -> bool) (P : kind -> Prop) ks : (forall k, p k = true <-> P k) -> positions_of P ks (positions p 0 ks).
Proof.
  intro E. split; [apply positions_increasing|]. intro i. rewrite positions_in. split.
  - intros (n & k & -> & H & Q). exists k. split; [exact H|now apply E].
  - intros (k & H & Q). exists i, k. repeat split; auto. now apply E.
Qed.
Lemma positions_length p ks : forall i, length (positions p i ks) = length (filter p ks).
Proof. induction ks as [|k t IH]; intro i; simpl; [reflexivity|]. rewrite app_length, IH. destruct (p k); reflexivity. Qed.

Theorem dims_exact ds cs sp : design_space ds cs = Ok sp -> bandit_free (kinds sp) ->
  exists c d, get_continuous_dims sp = Ok c /\ positions_of continuous_kind (kinds sp) c /\
    get_discrete_dims sp = Ok d /\ positions_of discrete_kind (kinds sp) d /\ input_dim sp = Ok (length c + length d).
Proof.
  intros D B. destruct (space_dim _ _ _ D B) as (E & _). unfold input_dim, get_continuous_dims, get_discrete_dims.
  rewrite !dims_positions by exact E. cbn [bind]. do 2 eexists. split; [reflexivity|]. split; [|split; [reflexivity|split; [|reflexivity]]].
  - apply positions_spec. intros [lo hi|vals|i a|c]; simpl; unfold continuous_kind; split; try discriminate; eauto; intros (? & ? & ?); congruence.
  - apply positions_spec. intros [lo hi|vals|i a|c]; simpl; unfold discrete_kind; split; try discriminate; eauto; intros (? & ?); congruence.
Qed.

(** ---- grid of the discrete variables ---- *)
Lemma product_in ls : forall r, In r (product ls) <-> Forall2 (fun x vals => In x vals) r ls.
Proof.
  induction ls as [|l t IH]; intro r; simpl.
  - split; [intros [<-|[]]; constructor|intro H; inversion H; now left].
  - rewrite in_flat_map. split.
    + intros (x & X & H). apply in_map_iff in H as (r' & <- & H). constructor; [exact X|now apply IH].
    + intro H. inversion H as [|x l0 r' t0 X R]; subst. exists x. split; [exact X|]. apply in_map_iff. exists r'. split; [reflexivity|now apply IH].
Qed.
Lemma NoDup_app3 {A} (l l' : list A) : NoDup l -> NoDup l' -> (forall x, In x l -> ~ In x l') -> NoDup (l ++ l').
Proof.
  induction 1 as [|a l N _ IH]; intros H' D; [exact H'|]. simpl. constructor.
  - rewrite in_app_iff. intros [X|X]; [contradiction|]. apply (D a); [now left|exact X].
  - apply IH; [exact H'|]. intros x X. apply D. now right.
Qed.
Lemma product_nodup ls : Forall (@NoDup Qc) ls -> NoDup (product ls).
Proof.
  induction 1 as [|l t N _ IH]; simpl; [repeat constructor; auto|].
  induction N as [|x l NI N IHl]; simpl; [constructor|]. apply NoDup_app3.
  - apply FinFun.Injective_map_NoDup; [|exact IH]. intros a b H. congruence.
  - exact IHl.
  - intros r R S. apply in_map_iff in R as (r' & <- & _). apply in_flat_map in S as (y & Y & S). apply in_map_iff in S as (s & S & _). injection S as -> _. contradiction.
Qed.
Lemma product_length ls : length (product ls) = fold_right Nat.mul 1 (map (@length Qc) ls).
Proof.
  induction ls as [|l t IH]; [reflexivity|]. simpl. rewrite <- IH. clear IH. induction l as [|x l IHl]; [reflexivity|]. simpl.
  rewrite app_length, map_length. f_equal. exact IHl.
Qed.

Definition doms (v : variable) : list vec := match v_kind v with KDisc vals => repeat vals (v_dim v) | _ => [] end.
Lemma doms_expand v xs : expand_var v = Ok xs -> doms v = discrete_domains (map x_kind xs).
Proof.
  unfold expand_var, doms. destruct (v_kind v) as [lo hi|vals|isarr arms|cats] eqn:E; intro H.
  1,4: injection H as <-; rewrite map_map; cbn [x_kind]; induction (seq 0 (v_dim v)) as [|a l IH]; simpl; auto.
  1: { injection H as <-. rewrite map_map. cbn [x_kind]. rewrite <- (seq_length (v_dim v) 0) at 1. induction (seq 0 (v_dim v)) as [|a l IH]; simpl; auto. now f_equal. }
  destruct isarr; [|discriminate]. injection H as <-. reflexivity.
Qed.
Lemma discrete_domains_app a b : discrete_domains (a ++ b) = discrete_domains a ++ discrete_domains b.
Proof. induction a as [|[ | | | ] a IH]; simpl; auto. now f_equal. Qed.
Lemma bandit_arms_app a b : bandit_arms (a ++ b) = bandit_arms a ++ bandit_arms b.
Proof. induction a as [|[ | | | ] a IH]; simpl; auto. now rewrite IH, app_assoc. Qed.
Lemma arms_expand v xs : expand_var v = Ok xs -> (match v_kind v with KBandit _ arms => arms | _ => [] end) = bandit_arms (map x_kind xs).
Proof.
  unfold expand_var. destruct (v_kind v) as [lo hi|vals|isarr arms|cats] eqn:E; intro H.
  1,2,4: injection H as <-; rewrite map_map; cbn [x_kind]; induction (seq 0 (v_dim v)) as [|a l IH]; simpl; auto.
  destruct isarr; [|discriminate]. injection H as <-. simpl. now rewrite app_nil_r.
Qed.
Lemma space_lists ds cs sp : design_space ds cs = Ok sp ->
  get_discrete_grid sp = product (discrete_domains (kinds sp)) /\ get_bandit sp = bandit_arms (kinds sp).
Proof.
  unfold design_space. intro D. apply bind_ok in D as (vs & Hv & D).
  apply bind_ok in D as (cfg & Hc & D). apply bind_ok in D as (xss & Hx & D). injection D as <-. clear Hv Hc.
  unfold get_discrete_grid, get_bandit, kinds. cbn [sp_vars sp_xvars]. rewrite set_indices_kind.
  enough (H : concat (map doms vs) = discrete_domains (map x_kind (concat xss)) /\
    concat (map (fun v => match v_kind v with KBandit _ arms => arms | _ => [] end) vs) = bandit_arms (map x_kind (concat xss))).
  { destruct H as (H1 & H2). split; [|exact H2]. rewrite <- H1. reflexivity. }
  revert xss Hx. induction vs as [|v t IH]; intros xss Hx; simpl in Hx.
  - injection Hx as <-. split; reflexivity.
  - apply bind_ok in Hx as (xs & Hxs & Hx). apply bind_ok in Hx as (xss' & Ht & Hx). injection Hx as <-.
    destruct (IH _ Ht) as (I1 & I2). simpl. rewrite map_app, discrete_domains_app, bandit_arms_app, <- I1, <- I2, (doms_expand _ _ Hxs), (arms_expand _ _ Hxs). split; reflexivity.
Qed.
Theorem discrete_grid ds cs sp : design_space ds cs = Ok sp ->
  (forall r, In r (get_discrete_grid sp) <-> Forall2 (fun x vals => In x vals) r (discrete_domains (kinds sp))) /\
  length (get_discrete_grid sp) = fold_right Nat.mul 1 (map (@length Qc) (discrete_domains (kinds sp))) /\
  (Forall (@NoDup Qc) (discrete_domains (kinds sp)) -> NoDup (get_discrete_grid sp)).
Proof.
  intro D. destruct (space_lists _ _ _ D) as (-> & _). split; [intro r; apply product_in|]. split; [apply product_length|apply product_nodup].
Qed.
Theorem bandit_query ds cs sp : design_space ds cs = Ok sp -> get_bandit sp = bandit_arms (kinds sp).
Proof. intro D. apply (space_lists _ _ _ D). Qed.

(** ---- subspaces ---- *)
Lemma subspace_kept vs : forall k dims, kept_from (get_subspace_from vs k dims) vs.
Proof. induction vs as [|v t IH]; intros k dims; simpl; [constructor|]. destruct (existsb (Nat.eqb k) dims); constructor; apply IH. Qed.
Lemma existsb_mem k dims : existsb (Nat.eqb k) dims = true <-> In k dims.
Proof. rewrite existsb_exists. split; [intros (x & X & E); apply Nat.eqb_eq in E; now subst|intro H; exists k; split; [exact H|apply Nat.eqb_refl]]. Qed.
Lemma subspace_in vs dims : Forall xv_ok vs -> bandit_free (map x_kind vs) -> Forall wf_kind (map x_kind vs) -> forall co cm v,
  In v (get_subspace_from (set_indices vs co cm) cm dims) <-> In v (set_indices vs co cm) /\ exists j, hd_error (x_idx_mod v) = Some j /\ In j dims.
Proof.
  induction 1 as [|w vs O _ IH]; intros B W co cm v; cbn [set_indices map] in *; [simpl; tauto|].
  inversion B as [|? ? B1 B2]; subst. inversion W as [|? ? W1 W2]; subst. unfold xv_ok in O.
  assert (G : forall m l r, (forall v, In v (get_subspace_from r m dims) <-> In v r /\ exists j, hd_error (x_idx_mod v) = Some j /\ In j dims) ->
    hd_error l = Some cm -> cm + x_mdim w = m ->
    In v (get_subspace_from (mk_xvar (x_name w) (x_kind w) (x_mdim w) [co] l :: r) cm dims) <->
    In v (mk_xvar (x_name w) (x_kind w) (x_mdim w) [co] l :: r) /\ exists j, hd_error (x_idx_mod v) = Some j /\ In j dims).
  { intros m l r HR HL HM. cbn [get_subspace_from x_mdim]. rewrite HM. destruct (existsb (Nat.eqb cm) dims) eqn:M.
    - apply existsb_mem in M. cbn [In]. rewrite HR. split.
      + intros [<-|(H & J)]; [split; [now left|]; exists cm; split; [exact HL|exact M]|split; [now right|exact J]].
      + intros ([<-|H] & J); [now left|right; split; [exact H|exact J]].
    - rewrite HR. cbn [In]. split; [intros (H & J); split; [now right|exact J]|]. intros ([<-|H] & J); [|split; [exact H|exact J]].
      destruct J as (j & J1 & J2). cbn [x_idx_mod] in J1. rewrite HL in J1. injection J1 as <-. apply existsb_mem in J2. congruence. }
  destruct (x_kind w) as [lo hi|vals|isarr arms|cats] eqn:E; simpl in O; try discriminate.
  - apply (G (S cm)); [intro; apply IH; auto|reflexivity|lia].
  - apply (G (S cm)); [intro; apply IH; auto|reflexivity|lia].
  - apply (G (cm + length cats)); [intro; apply IH; auto| |lia]. destruct cats; [simpl in W1; congruence|reflexivity].
Qed.
Theorem subspace_query ds cs sp dims : design_space ds cs = Ok sp -> Forall wf_kind (kinds sp) -> bandit_free (kinds sp) ->
  kept_from (get_subspace sp dims) (sp_xvars sp) /\
  forall v, In v (get_subspace sp dims) <-> In v (sp_xvars sp) /\ exists j, hd_error (x_idx_mod v) = Some j /\ In j dims.
Proof.
  intros D W B. split; [apply subspace_kept|]. unfold design_space in D. apply bind_ok in D as (vs & Hv & D).
  apply bind_ok in D as (cfg & Hc & D). apply bind_ok in D as (xss & Hx & D). injection D as <-.
  destruct (mapM_expand _ _ Hx) as (A & _ & _). unfold get_subspace, kinds in *. cbn [sp_xvars] in *. rewrite set_indices_kind in *.
  intro v. apply subspace_in; auto.
Qed.

(** ---- old style bounds ---- *)
Definition var_name (k : nat) : string := ("var_" ++ str_nat (S k))%string.
Lemma bounds_vars bs : forall s, exists vs, translate_from s (map (fun '(k, (a, b)) => mk_descr (Some (var_name k)) (Some "continuous"%string) (Some (RNums [a; b])) (Some 1))
      (combine (seq s (length bs)) bs)) = Ok vs /\ vs = map (fun '(k, (a, b)) => mk_var (var_name k) (KCont a b) 1) (combine (seq s (length bs)) bs).
Proof.
  induction bs as [|[a b] t IH]; intro s; simpl; [eexists; split; reflexivity|]. destruct (IH (S s)) as (vs & H & E). rewrite H. simpl. rewrite <- E. eexists. split; reflexivity.
Qed.
Lemma bounds_config bs : forall s, exists ls, mapM expand_config1 (map (fun '(k, (a, b)) => mk_descr (Some (var_name k)) (Some "continuous"%string) (Some (RNums [a; b])) (Some 1))
      (combine (seq s (length bs)) bs)) = Ok ls.
Proof. induction bs as [|[a b] t IH]; intro s; simpl; [eauto|]. destruct (IH (S s)) as (ls & ->). simpl. eauto. Qed.
Lemma bounds_expand bs : forall s, mapM expand_var (map (fun '(k, (a, b)) => mk_var (var_name k) (KCont a b) 1) (combine (seq s (length bs)) bs)) =
  Ok (map (fun '(k, (a, b)) => [mk_xvar (var_name k) (KCont a b) 1 [] []]) (combine (seq s (length bs)) bs)).
Proof. induction bs as [|[a b] t IH]; intro s; simpl; [reflexivity|]. now rewrite IH. Qed.
Lemma bounds_indices bs : forall s, set_indices (concat (map (fun '(k, (a, b)) => [mk_xvar (var_name k) (KCont a b) 1 [] []]) (combine (seq s (length bs)) bs))) s s =
  map (fun '(k, (a, b)) => mk_xvar (var_name k) (KCont a b) 1 [k] [k]) (combine (seq s (length bs)) bs).
Proof. induction bs as [|[a b] t IH]; intro s; simpl; [reflexivity|]. now rewrite IH. Qed.
Lemma bounds_get bs : forall s, exists l, mapM var_bounds (map (fun '(k, (a, b)) => mk_xvar (var_name k) (KCont a b) 1 [k] [k]) (combine (seq s (length bs)) bs)) = Ok l /\ concat l = bs.
Proof. induction bs as [|[a b] t IH]; intro s; simpl; [eexists; split; reflexivity|]. destruct (IH (S s)) as (l & -> & E). simpl. eexists. split; [reflexivity|]. simpl. now rewrite E. Qed.
Lemma bounds_maps bs : forall s, let vs := map (fun '(k, (a, b)) => mk_xvar (var_name k) (KCont a b) 1 [k] [k]) (combine (seq s (length bs)) bs) in
  map x_kind vs = map (fun b => KCont (fst b) (snd b)) bs /\ map x_name vs = map var_name (seq s (length bs)) /\ map x_idx_mod vs = map (fun i => [i]) (seq s (length bs)).
Proof.
  induction bs as [|[a b] t IH]; intro s; cbn zeta; simpl; [auto|]. destruct (IH (S s)) as (A & B & C). rewrite A, B, C. auto.
Qed.
Theorem bounds_space bs : exists sp, design_space (bounds_to_space bs) None = Ok sp /\ get_bounds sp = Ok bs /\
  kinds sp = map (fun b => KCont (fst b) (snd b)) bs /\ map x_name (sp_xvars sp) = map var_name (seq 0 (length bs)) /\
  map x_idx_mod (sp_xvars sp) = map (fun i => [i]) (seq 0 (length bs)) /\ has_constraints sp = false.
Proof.
  unfold bounds_to_space, design_space, translate_space, expand_config_space.
  change (fun '(k, (a, b)) => mk_descr (Some ("var_" ++ str_nat (S k))%string) (Some "continuous"%string) (Some (RNums [a; b])) (Some 1))
    with (fun '(k, (a, b)) => mk_descr (Some (var_name k)) (Some "continuous"%string) (Some (RNums [a; b])) (Some 1)).
  destruct (bounds_vars bs 0) as (vs & -> & E). cbn [bind].
  replace (existsb (fun v => is_bandit (v_kind v)) vs) with false.
  2:{ symmetry. apply existsb_false. subst vs. apply Forall_map, Forall_forall. intros (k, (a, b)) _. reflexivity. }
  cbn [andb bind]. destruct (bounds_config bs 0) as (ls & ->). cbn [bind]. subst vs. rewrite bounds_expand. cbn [bind]. rewrite bounds_indices.
  eexists. split; [reflexivity|]. unfold get_bounds, kinds. cbn [sp_xvars]. destruct (bounds_get bs 0) as (l & -> & EL). cbn [bind]. rewrite EL.
  destruct (bounds_maps bs 0) as (-> & -> & ->). repeat split.
Qed.
