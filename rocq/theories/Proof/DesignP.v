(** Lemmas about initial designs. *)
From Coq Require Import String List ZArith QArith Qcanon Bool Lqa Lia.
From Verif.Model Require Import Py Space Design.
From Verif.Spec Require Import SpaceSpec DesignSpec.
From Verif.Proof Require Import Num SpaceP SpaceMain IrootP.
Import ListNotations.
Local Open Scope nat_scope.

(** ---- lists ---- *)
Lemma mapi_length {A B} (f : nat -> A -> B) l : forall i, length (mapi_from f i l) = length l.
Proof. induction l; simpl; auto. Qed.
Lemma mapi_mapi {A B C} (f : nat -> A -> B) (g : nat -> B -> C) l : forall i,
  mapi_from g i (mapi_from f i l) = mapi_from (fun j a => g j (f j a)) i l.
Proof. induction l; simpl; intros; f_equal; auto. Qed.
Lemma mapi_ext {A B} (f g : nat -> A -> B) l : forall i,
  (forall j a, In a l -> f j a = g j a) -> mapi_from f i l = mapi_from g i l.
Proof. induction l; simpl; intros; f_equal; auto. Qed.
Lemma mapi_id {A} (f : nat -> A -> A) l : forall i, (forall j a, In a l -> f j a = a) -> mapi_from f i l = l.
Proof. induction l; simpl; intros; f_equal; auto. Qed.
Lemma mapi_map_seq {A B} (f : nat -> A -> B) (h : nat -> A) n : forall s,
  mapi_from f s (map h (seq s n)) = map (fun j => f j (h j)) (seq s n).
Proof. induction n; simpl; intros; f_equal; auto. Qed.

Lemma choice_in {A} (d : A) l k : l <> [] -> In (choice d l k) l.
Proof.
  intro H. unfold choice. apply nth_In. apply Nat.mod_upper_bound. destruct l; simpl; congruence.
Qed.

Lemma set_nth_app {A} (p : list A) x r y : set_nth (p ++ x :: r) (length p) y = p ++ y :: r.
Proof. induction p; simpl; f_equal; auto. Qed.

(** ---- filling the non-continuous variables, row by row ---- *)
Fixpoint frow (dr : draws) (i idx : nat) (ks : list kind) (row : vec) : vec :=
  match ks, row with
  | k :: t, x :: r =>
      (match k with
       | KDisc (d :: vs) => choice d (d :: vs) (dr_idx dr idx i)
       | KCat (d :: vs) => choice d (d :: vs) (dr_idx dr idx i)
       | _ => x
       end) :: frow dr i (S idx) t r
  | _, _ => row
  end.

Lemma frow_length dr i ks : forall idx row, length (frow dr i idx ks row) = length row.
Proof. induction ks; intros idx [|x r]; simpl; auto. Qed.

Lemma fill_from_rows dr dim vs : Forall wf_kind (map x_kind vs) -> bandit_free (map x_kind vs) ->
  forall idx M, idx + length vs <= dim -> Forall (fun row => length row = dim) M ->
  fill_from dim dr idx vs M =
  Ok (mapi_from (fun i row => firstn idx row ++ frow dr i idx (map x_kind vs) (skipn idx row)) 0 M).
Proof.
  induction vs as [|v t IH]; intros W B idx M L HM.
  - simpl. f_equal. symmetry. apply mapi_id. intros. apply firstn_skipn.
  - inversion W; subst. inversion B; subst. simpl in L. cbn [fill_from].
    assert (S1 : forall f, Forall (fun row : vec => length row = dim)
                      (mapi_from (fun i row => set_nth row idx (f i)) 0 M)).
    { intros f. generalize 0. clear -HM. induction HM; intro n; simpl; constructor; auto. rewrite set_nth_length; auto. }
    assert (S2 : forall row : vec, In row M -> exists p x r, row = p ++ x :: r /\ length p = idx).
    { intros row I. rewrite Forall_forall in HM. specialize (HM _ I).
      exists (firstn idx row). destruct (skipn idx row) as [|x r] eqn:E.
      - apply (f_equal (@length Qc)) in E. rewrite skipn_length in E. simpl in E. lia.
      - exists x, r. split; [rewrite <- E; symmetry; apply firstn_skipn|]. apply firstn_length_le. lia. }
    assert (F1 : forall (p : vec) x r, length p = idx -> firstn idx (p ++ x :: r) = p).
    { intros p x r <-. rewrite firstn_app, Nat.sub_diag, firstn_all. simpl. apply app_nil_r. }
    assert (F2 : forall (p : vec) x r, length p = idx -> skipn idx (p ++ x :: r) = x :: r).
    { intros p x r <-. rewrite skipn_app, Nat.sub_diag, skipn_all. reflexivity. }
    assert (F3 : forall (p : vec) x r, length p = idx -> firstn (S idx) (p ++ x :: r) = p ++ [x]).
    { intros p x r <-. rewrite firstn_app. rewrite firstn_all2 by lia. replace (S (length p) - length p) with 1 by lia. reflexivity. }
    assert (F4 : forall (p : vec) x r, length p = idx -> skipn (S idx) (p ++ x :: r) = r).
    { intros p x r <-. rewrite skipn_app. rewrite skipn_all2 by lia. replace (S (length p) - length p) with 1 by lia. reflexivity. }
    assert (F5 : forall (p : vec) x r y, length p = idx -> set_nth (p ++ x :: r) idx y = p ++ y :: r).
    { intros p x r y <-. apply set_nth_app. }
    assert (W1 : wf_kind (x_kind v)) by auto. assert (B1 : is_bandit (x_kind v) = false) by auto.
    unfold fill_var. cbn [map frow]. destruct (x_kind v) as [lo hi|vals|ia arms|vals] eqn:E; simpl in W1; simpl in B1; try discriminate; cbn [bind].
    + rewrite IH; auto; try lia. f_equal. apply mapi_ext. intros j row I. destruct (S2 row I) as (p & x & r & -> & P).
      rewrite F1, F2, F3, F4 by auto. rewrite <- app_assoc. reflexivity.
    + destruct vals as [|d vals]; [congruence|]. destruct (Nat.ltb_spec idx dim); [|lia]. cbn [bind].
      rewrite IH; auto; try lia. f_equal. rewrite mapi_mapi. apply mapi_ext. intros j row I.
      destruct (S2 row I) as (p & x & r & -> & P). rewrite F1, F2 by auto. rewrite F5 by auto.
      rewrite F3, F4 by auto. rewrite <- app_assoc. reflexivity.
    + destruct vals as [|d vals]; [congruence|]. destruct (Nat.ltb_spec idx dim); [|lia]. cbn [bind].
      rewrite IH; auto; try lia. f_equal. rewrite mapi_mapi. apply mapi_ext. intros j row I.
      destruct (S2 row I) as (p & x & r & -> & P). rewrite F1, F2 by auto. rewrite F5 by auto.
      rewrite F3, F4 by auto. rewrite <- app_assoc. reflexivity.
Qed.

(** ---- continuous columns ---- *)
Fixpoint cdims (i : nat) (ks : list kind) : list nat :=
  match ks with [] => [] | k :: t => (if is_continuous k then [i] else []) ++ cdims (S i) t end.
Definition cbounds (ks : list kind) : list (Qc * Qc) :=
  concat (map (fun k => match k with KCont lo hi => [(lo, hi)] | _ => [] end) ks).
Fixpoint merge (ks : list kind) (row vals : vec) : vec :=
  match ks, row with
  | k :: t, x :: r =>
      if is_continuous k then match vals with v :: vals' => v :: merge t r vals' | [] => x :: r end
      else x :: merge t r vals
  | _, _ => row
  end.

Lemma cdims_length ks : forall i, length (cdims i ks) = length (cbounds ks).
Proof.
  induction ks as [|k t IH]; intros; simpl; auto. unfold cbounds in *. simpl. rewrite !app_length, IH. destruct k; reflexivity.
Qed.

Lemma set_cols_merge ks : forall p row vals, length row = length ks -> length vals = length (cbounds ks) ->
  set_cols (p ++ row) (cdims (length p) ks) vals = p ++ merge ks row vals.
Proof.
  induction ks as [|k t IH]; intros p [|x r] vals L Lv; simpl in L; try discriminate.
  - reflexivity.
  - injection L as L. unfold cbounds in *. simpl in *. destruct k; simpl in *;
      try (specialize (IH (p ++ [x]) r vals L Lv); rewrite app_length in IH; simpl in IH;
           rewrite Nat.add_1_r in IH; rewrite <- !app_assoc in IH; exact IH).
    destruct vals as [|v vals]; [discriminate|]. injection Lv as Lv. rewrite set_nth_app.
    specialize (IH (p ++ [v]) r vals L Lv). rewrite app_length in IH; simpl in IH.
    rewrite Nat.add_1_r in IH. rewrite <- !app_assoc in IH. exact IH.
Qed.

Lemma mapM_dims (vs : list xvar) : forall p, 
  mapM (fun i => v <- get (p ++ vs) i ;; Ok (if is_continuous (x_kind v) then [i] else [])) (seq (length p) (length vs)) =
  Ok (map (fun '(i, v) => if is_continuous (x_kind v) then [i] else []) (combine (seq (length p) (length vs)) vs)).
Proof.
  induction vs as [|v t IH]; intros p; simpl; auto.
  unfold get at 1. rewrite nth_error_app2, Nat.sub_diag by lia. simpl.
  specialize (IH (p ++ [v])). rewrite app_length in IH. simpl in IH. rewrite Nat.add_1_r in IH.
  rewrite <- app_assoc in IH. simpl in IH. rewrite IH. reflexivity.
Qed.

Lemma cdims_concat vs : forall i,
  concat (map (fun '(i, v) => if is_continuous (x_kind v) then [i] else []) (combine (seq i (length vs)) vs)) =
  cdims i (map x_kind vs).
Proof. induction vs; intros; simpl; auto. rewrite IHvs. reflexivity. Qed.

(** ---- facts the constructor establishes ---- *)
Lemma space_dim ds cs sp : design_space ds cs = Ok sp -> bandit_free (kinds sp) ->
  sp_dim sp = length (sp_xvars sp) /\ get_continuous_bounds sp = cbounds (kinds sp) /\
  (has_continuous sp = false -> existsb is_continuous (kinds sp) = false).
Proof.
  intros D B. pose proof (bandit_free_has _ (design_space_facts _ _ _ D) B) as HB.
  unfold design_space in D. apply bind_ok in D as (vs & Hv & D).
  apply bind_ok in D as (cfg & Hc & D). apply bind_ok in D as (xss & Hx & D). injection D as <-.
  unfold has_bandit in HB. simpl in HB. apply existsb_false in HB. clear Hv Hc B.
  unfold kinds, has_continuous, get_continuous_bounds. simpl. rewrite set_indices_kind, set_indices_len.
  revert xss Hx. induction HB as [|v t V HB IH]; intros xss Hx.
  - simpl in Hx. injection Hx as <-. auto.
  - simpl in Hx. apply bind_ok in Hx as (xs & Hxs & Hx). apply bind_ok in Hx as (xss' & Ht & Hx). injection Hx as <-.
    destruct (IH _ Ht) as (I1 & I2 & I3). destruct (expand_var_ok _ _ Hxs) as (A1 & A2 & _ & A4).
    specialize (A4 V). simpl. rewrite app_length, map_app, existsb_app, I1, I2, A4. repeat split.
    + unfold cbounds. rewrite map_app, concat_app. f_equal. clear -A2 A4 V. rewrite <- A4. clear A4.
      induction A2 as [|x xs H A2 IH]; simpl; [destruct (v_kind v); reflexivity|]. rewrite H.
      destruct (v_kind v) eqn:E; simpl in *; try discriminate; f_equal; auto.
    + intro H. apply orb_false_iff in H as [H1 H2]. rewrite (I3 H2), orb_false_r.
      apply existsb_false. apply Forall_map. eapply Forall_impl; [|exact A2]. intros a ->. auto.
Qed.

Lemma get_continuous_dims_ok ds cs sp : design_space ds cs = Ok sp -> bandit_free (kinds sp) ->
  get_continuous_dims sp = Ok (cdims 0 (kinds sp)).
Proof.
  intros D B. destruct (space_dim _ _ _ D B) as (E & _ & _). unfold get_continuous_dims, dims_of. rewrite E.
  pose proof (mapM_dims (sp_xvars sp) []) as Q. simpl in Q. rewrite Q. cbn [bind]. rewrite cdims_concat. reflexivity.
Qed.

(** the continuous bounds are [] without continuous kinds *)
Lemma cbounds_nil ks : existsb is_continuous ks = false -> cbounds ks = [].
Proof.
  induction ks; simpl; auto. intro H. apply orb_false_iff in H as [H1 H2]. unfold cbounds in *. simpl. rewrite IHks; auto.
  destruct a; auto; discriminate.
Qed.
Lemma merge_nocont ks : existsb is_continuous ks = false -> forall row vals, merge ks row vals = row.
Proof.
  induction ks; intros H row vals; destruct row; simpl in *; auto. apply orb_false_iff in H as [H1 H2]. rewrite H1. f_equal; auto.
Qed.

(** the common part of all designs: random values for the discrete variables, the rows of X for the others *)
Definition final_row (sp : space) (dr : draws) (i : nat) (x : vec) : vec :=
  merge (kinds sp) (frow dr i 0 (kinds sp) (map (dr_junk dr i) (seq 0 (sp_dim sp)))) x.

Lemma np_empty_rows junk n dim : Forall (fun row => length row = dim) (np_empty junk n dim).
Proof. unfold np_empty. apply Forall_map. apply Forall_forall. intros i _. rewrite map_length, seq_length. auto. Qed.

Lemma fill_noncontinuous_ok ds cs sp dr n : design_space ds cs = Ok sp -> Forall wf_kind (kinds sp) -> bandit_free (kinds sp) ->
  fill_noncontinuous sp dr (np_empty (dr_junk dr) n (sp_dim sp)) =
  Ok (map (fun i => frow dr i 0 (kinds sp) (map (dr_junk dr i) (seq 0 (sp_dim sp)))) (seq 0 n)).
Proof.
  intros D W B. destruct (space_dim _ _ _ D B) as (E & _ & _). unfold fill_noncontinuous.
  rewrite fill_from_rows; auto; [|rewrite E; auto|apply np_empty_rows].
  f_equal. unfold np_empty. rewrite (mapi_map_seq _ _ n 0). apply map_ext. intro i. simpl. reflexivity.
Qed.

Lemma combine_map_l {A B C} (f : A -> B) (l : list A) (l' : list C) :
  combine (map f l) l' = map (fun '(a, c) => (f a, c)) (combine l l').
Proof. revert l'; induction l; intros [|c l']; simpl; f_equal; auto. Qed.

Lemma map_combine_fst {A B C} (f : A -> B) (l : list A) : forall (l' : list C), length l' = length l ->
  map (fun '(a, _) => f a) (combine l l') = map f l.
Proof. induction l; intros [|c l']; simpl; try discriminate; auto. intro H. f_equal. auto. Qed.

Lemma assign_final ds cs sp dr n X : design_space ds cs = Ok sp -> Forall wf_kind (kinds sp) -> bandit_free (kinds sp) ->
  length X = n -> Forall (fun x => length x = length (cbounds (kinds sp))) X ->
  (M <- fill_noncontinuous sp dr (np_empty (dr_junk dr) n (sp_dim sp)) ;;
   if has_continuous sp then dims <- get_continuous_dims sp ;; assign_cols dims M X else Ok M) =
  Ok (map (fun '(i, x) => final_row sp dr i x) (combine (seq 0 n) X)).
Proof.
  intros D W B L HX. destruct (space_dim _ _ _ D B) as (E & E2 & E3).
  rewrite (fill_noncontinuous_ok _ _ _ _ _ D W B). cbn [bind].
  destruct (has_continuous sp).
  - rewrite (get_continuous_dims_ok _ _ _ D B). cbn [bind]. unfold assign_cols.
    unfold mat, vec in *. rewrite map_length, seq_length, L, Nat.eqb_refl. cbn [andb].
    replace (forallb _ X) with true.
    2:{ symmetry. apply forallb_forall. intros x I. rewrite Forall_forall in HX. rewrite (HX x I), cdims_length. apply Nat.eqb_refl. }
    f_equal. rewrite combine_map_l, map_map. apply map_ext_in. intros [i x] I.
    unfold final_row. pose proof (set_cols_merge (kinds sp) [] (frow dr i 0 (kinds sp) (map (dr_junk dr i) (seq 0 (sp_dim sp)))) x) as Q.
    simpl in Q. apply Q.
    + rewrite frow_length, map_length, seq_length, E. unfold kinds. rewrite map_length. auto.
    + rewrite Forall_forall in HX. apply HX. apply in_combine_r in I. auto.
  - f_equal. specialize (E3 eq_refl).
    transitivity (map (fun '(i, x) => frow dr i 0 (kinds sp) (map (dr_junk dr i) (seq 0 (sp_dim sp)))) (combine (seq 0 n) X)).
    + symmetry. apply map_combine_fst. rewrite seq_length. auto.
    + apply map_ext_in. intros [i x] _. unfold final_row. rewrite merge_nocont; auto.
Qed.

(** what a final row contains *)
Lemma final_row_valid ks dr i : Forall wf_kind ks -> bandit_free ks -> forall idx row x, length row = length ks ->
  Forall2 (fun y b => (fst b <= y)%Qc /\ (y <= snd b)%Qc) x (cbounds ks) ->
  Forall2 user_value ks (merge ks (frow dr i idx ks row) x).
Proof.
  induction ks as [|k t IH]; intros W B idx row x L H; destruct row as [|r row]; simpl in L; try discriminate.
  - constructor.
  - inversion W; subst. inversion B; subst. injection L as L. simpl. unfold cbounds in H. simpl in H.
    destruct k as [lo hi|vals|ia arms|vals]; simpl in *; try discriminate.
    + destruct x as [|x0 x]; inversion H; subst. constructor; [simpl; auto|]. apply IH; auto.
    + destruct vals as [|d vals]; [congruence|]. constructor; [|apply IH; auto]. simpl. apply (choice_in d (d :: vals)). discriminate.
    + destruct vals as [|d vals]; [congruence|]. constructor; [|apply IH; auto]. simpl. apply (choice_in d (d :: vals)). discriminate.
Qed.

Lemma final_row_ok ds cs sp dr i x : design_space ds cs = Ok sp -> Forall wf_kind (kinds sp) -> bandit_free (kinds sp) ->
  in_box (cbounds (kinds sp)) x -> Forall2 user_value (kinds sp) (final_row sp dr i x).
Proof.
  intros D W B H. destruct (space_dim _ _ _ D B) as (E & _ & _). apply final_row_valid; auto.
  rewrite map_length, seq_length, E. unfold kinds. rewrite map_length. auto.
Qed.

Lemma merge_all_cont ks : Forall (fun k => is_continuous k = true) ks -> forall row x,
  length row = length ks -> length x = length ks -> merge ks row x = x.
Proof.
  induction 1; intros [|r row] [|y x0]; simpl; try discriminate; auto. rewrite H. intros. f_equal. auto.
Qed.
