(** Lemmas about the design space. *)
From Coq Require Import String List ZArith QArith Qcanon Bool Lqa Lia.
From Verif.Model Require Import Py Space.
From Verif.Spec Require Import SpaceSpec.
From Verif.Proof Require Import Num.
Import ListNotations.
Local Open Scope nat_scope.

(** ---- structure of spaces built by the constructor ---- *)
Definition xv_ok (v : xvar) : Prop := x_mdim v = width (x_kind v).

Lemma expand_var_ok v xs : expand_var v = Ok xs ->
  Forall xv_ok xs /\ Forall (fun x => x_kind x = v_kind v) xs /\
  (is_bandit (v_kind v) = true -> length xs = 1) /\
  (is_bandit (v_kind v) = false -> length xs = v_dim v).
Proof.
  unfold expand_var. destruct (v_kind v) eqn:E; try destruct isarr; intros [= <-];
    repeat apply conj; try discriminate; auto;
    try (intros; rewrite map_length, seq_length; reflexivity);
    try (apply Forall_forall; intros x Hx; try apply in_map_iff in Hx as (i & <- & _); try (destruct Hx as [<-|[]]); simpl; auto; reflexivity).
Qed.

Lemma mapM_expand vs : forall xss, mapM expand_var vs = Ok xss ->
  Forall xv_ok (concat xss) /\
  (Forall (fun v => is_bandit (v_kind v) = false) vs -> Forall (fun x => is_bandit (x_kind x) = false) (concat xss)) /\
  (Forall (fun v => is_bandit (v_kind v) = true) vs -> Forall (fun x => is_bandit (x_kind x) = true) (concat xss) /\ length (concat xss) = length vs /\ map x_kind (concat xss) = map v_kind vs).
Proof.
  induction vs as [|v t IH]; intros xss; simpl; intro H.
  - injection H as <-. simpl. repeat split; auto.
  - apply bind_ok in H as (xs & Hx & H). apply bind_ok in H as (xss' & Ht & H). injection H as <-. simpl.
    destruct (expand_var_ok _ _ Hx) as (A1 & A2 & A3 & A4). destruct (IH _ Ht) as (B1 & B2 & B3).
    repeat split.
    + apply Forall_app; auto.
    + intro F; inversion F; subst. apply Forall_app; split; auto.
      eapply Forall_impl; [|exact A2]. intros a ->; auto.
    + inversion H; subst. apply Forall_app; split; [|apply B3; auto].
      eapply Forall_impl; [|exact A2]. intros a ->; auto.
    + inversion H; subst. rewrite app_length, (A3 H2). destruct (B3 H3) as (_ & -> & _). reflexivity.
    + inversion H; subst. rewrite map_app. destruct (B3 H3) as (_ & _ & ->).
      specialize (A3 H2). destruct xs as [|x [|]]; try discriminate. inversion A2; subst. simpl. congruence.
Qed.

Lemma set_indices_map {B} (f : xvar -> B) vs :
  (forall v i j, f (mk_xvar (x_name v) (x_kind v) (x_mdim v) i j) = f v) ->
  forall co cm, map f (set_indices vs co cm) = map f vs.
Proof.
  intro Hf. induction vs as [|v t IH]; intros co cm; simpl; auto.
  destruct (x_kind v) eqn:E; simpl; rewrite IH; f_equal; rewrite <- E; apply Hf.
Qed.
Lemma set_indices_kind vs co cm : map x_kind (set_indices vs co cm) = map x_kind vs.
Proof. apply set_indices_map; reflexivity. Qed.
Lemma set_indices_mdim vs co cm : map x_mdim (set_indices vs co cm) = map x_mdim vs.
Proof. apply set_indices_map; reflexivity. Qed.
Lemma set_indices_name vs co cm : map x_name (set_indices vs co cm) = map x_name vs.
Proof. apply set_indices_map; reflexivity. Qed.

Lemma Forall_map_eq {A B} (f g : A -> B) l : Forall (fun x => f x = g x) l <-> map f l = map g l.
Proof.
  induction l; simpl; split; intro H; auto.
  - inversion H; subst. f_equal; auto. apply IHl; auto.
  - injection H as H1 H2. constructor; auto. apply IHl; auto.
Qed.

Lemma set_indices_ok vs co cm : Forall xv_ok vs -> Forall xv_ok (set_indices vs co cm).
Proof.
  revert co cm; induction vs as [|v t IH]; intros co cm H; simpl; auto.
  inversion H; subst. destruct (x_kind v) eqn:E; constructor; auto; unfold xv_ok in *; simpl; rewrite E in *; auto.
Qed.

Record space_facts (sp : space) : Prop := {
  sf_ok : Forall xv_ok (sp_xvars sp);
  sf_nb : has_bandit sp = false -> bandit_free (kinds sp);
  sf_b : has_bandit sp = true -> Forall (fun k => is_bandit k = true) (kinds sp) /\ kinds sp <> [] }.

Lemma existsb_false {A} (f : A -> bool) l : existsb f l = false <-> Forall (fun a => f a = false) l.
Proof.
  induction l; simpl; split; intro H; auto.
  - apply orb_false_iff in H as [H1 H2]. constructor; auto. apply IHl; auto.
  - inversion H; subst. apply orb_false_iff; split; auto. apply IHl; auto.
Qed.

Lemma design_space_facts ds cs sp : design_space ds cs = Ok sp -> space_facts sp.
Proof.
  unfold design_space. intro H. apply bind_ok in H as (vs & Hv & H).
  apply bind_ok in H as (cfg & Hc & H). apply bind_ok in H as (xss & Hx & H). injection H as <-.
  destruct (mapM_expand _ _ Hx) as (A & B & C).
  unfold translate_space in Hv. apply bind_ok in Hv as (vs' & Hv' & Hv).
  destruct (existsb _ vs' && existsb _ vs') eqn:E; [discriminate|]. injection Hv as ->.
  apply andb_false_iff in E.
  constructor; simpl.
  - apply set_indices_ok; auto.
  - unfold has_bandit, kinds, bandit_free; simpl. intro F. rewrite set_indices_kind.
    apply existsb_false in F. apply B in F. apply Forall_map. auto.
  - unfold has_bandit, kinds; simpl. intro F. rewrite set_indices_kind. destruct E as [E|E]; [congruence|].
    apply existsb_false in E.
    assert (G : Forall (fun v => is_bandit (v_kind v) = true) vs).
    { eapply Forall_impl; [|exact E]. simpl. intros a. destruct (is_bandit (v_kind a)); auto. }
    destruct (C G) as (C1 & C2 & C3). split.
    + apply Forall_map; auto.
    + rewrite C3. apply existsb_exists in F as (v & Hv & _). destruct vs; [destruct Hv|discriminate].
Qed.

Lemma has_bandit_kinds sp : space_facts sp -> bandit_free (kinds sp) -> kinds sp = [] \/ has_bandit sp = false.
Proof.
  intros F B. destruct (has_bandit sp) eqn:E; auto. destruct (sf_b _ F E) as (H & _).
  left. destruct (kinds sp); auto. inversion H; inversion B; congruence.
Qed.

Lemma model_dim_width sp : space_facts sp -> model_dimensionality sp = total_width (kinds sp).
Proof.
  intros F. unfold model_dimensionality, total_width, kinds. rewrite map_map.
  rewrite (proj1 (Forall_map_eq x_mdim (fun x => width (x_kind x)) (sp_xvars sp))); auto. apply (sf_ok _ F).
Qed.

(** ---- sums ---- *)
Lemma qsum_fold l : forall a, fold_left Qcplus l a = (a + fold_left Qcplus l q0)%Qc.
Proof.
  induction l as [|x t IH]; intros a; simpl.
  - unfold q0. ring.
  - rewrite IH, (IH (q0 + x)%Qc). unfold q0. ring.
Qed.
Lemma qsum_cons x l : qsum (x :: l) = (x + qsum l)%Qc.
Proof. unfold qsum. simpl. rewrite qsum_fold. unfold q0. ring. Qed.
Lemma qsum_nil : qsum [] = 0%Qc. Proof. reflexivity. Qed.

(** ---- one-hot blocks ---- *)
Lemma one_hot_set_nth n i : i < n -> one_hot n i (set_nth (repeat q0 n) i q1).
Proof.
  intro H. split; [rewrite set_nth_length, repeat_length; auto|]. split; auto.
  intros j Hj. destruct (Nat.eqb_spec j i) as [->|Hne].
  - apply nth_error_set_nth_eq. rewrite repeat_length; auto.
  - rewrite nth_error_set_nth_ne by auto. apply nth_error_repeat. auto.
Qed.
Lemma one_hot_unique n i b b' : one_hot n i b -> one_hot n i b' -> b = b'.
Proof.
  intros (L & Hi & H) (L' & _ & H'). apply nth_error_ext. intros j.
  destruct (Nat.lt_ge_cases j n); [rewrite H, H'; auto|].
  rewrite !(proj2 (nth_error_None _ _)); auto; lia.
Qed.

(** sum_j j*b_j over a one-hot block *)
Definition wsum (s : nat) (b : vec) : Qc := qsum (map (fun '(a, c) => (nat2q a * c)%Qc) (combine (seq s (length b)) b)).
Lemma wsum_cons s x b : wsum s (x :: b) = (nat2q s * x + wsum (S s) b)%Qc.
Proof. unfold wsum. simpl. rewrite qsum_cons. reflexivity. Qed.
Lemma wsum_zero b : forall s, (forall j, j < length b -> nth_error b j = Some 0%Qc) -> wsum s b = 0%Qc.
Proof.
  induction b as [|x t IH]; intros s H; [reflexivity|]. rewrite wsum_cons, IH.
  - specialize (H 0 ltac:(simpl; lia)). simpl in H. injection H as ->. ring.
  - intros j Hj. apply (H (S j)). simpl; lia.
Qed.
Lemma wsum_one_hot b : forall s n i, one_hot n i b -> wsum s b = nat2q (s + i).
Proof.
  induction b as [|x t IH]; intros s n i (L & Hi & H); simpl in L; [lia|].
  rewrite wsum_cons. destruct i as [|i].
  - rewrite wsum_zero.
    + specialize (H 0 ltac:(lia)). simpl in H. injection H as ->. rewrite Nat.add_0_r. ring.
    + intros j Hj. specialize (H (S j) ltac:(lia)). exact H.
  - rewrite (IH (S s) (pred n) i).
    + specialize (H 0 ltac:(lia)). simpl in H. injection H as ->. replace (S s + i) with (s + S i) by lia. ring.
    + repeat split; try lia. intros j Hj. specialize (H (S j) ltac:(lia)). exact H.
Qed.

(** ---- encode / decode one variable ---- *)
Lemma py_index_nat n i : i < n -> py_index n (Z.of_nat i) = Some i.
Proof.
  intro H. unfold py_index. replace (0 <=? Z.of_nat i)%Z with true by (symmetry; apply Z.leb_le; lia).
  replace (Z.of_nat i <? Z.of_nat n)%Z with true by (symmetry; apply Z.ltb_lt; lia). rewrite Nat2Z.id. reflexivity.
Qed.

Lemma var_encode v x : xv_ok v -> encodable (x_kind v) x ->
  exists b, var_objective_to_model v x = Ok b /\ length b = x_mdim v /\ encoding_block (x_kind v) b /\
    forall p r, var_model_to_objective v (p ++ b ++ r) (length p) = Ok [x].
Proof.
  unfold xv_ok, var_objective_to_model, var_model_to_objective, encodable, encoding_block.
  intros Hw He. destruct (x_kind v) eqn:E; simpl in Hw.
  - exists [x]. repeat split; auto. intros. unfold get. rewrite nth_error_app2, Nat.sub_diag; auto.
  - exists [x]. repeat split; auto. intros. unfold get. rewrite nth_error_app2, Nat.sub_diag; auto.
  - destruct He.
  - destruct He as (n & Hn & ->). rewrite py_int_nat2q, py_index_nat by lia.
    pose proof (one_hot_set_nth (x_mdim v) n ltac:(lia)) as O. destruct O as (OL & O).
    eexists. split; [reflexivity|]. split; [exact OL|]. split; [exists n; rewrite <- Hw; split; auto|].
    intros p r. rewrite <- OL at 1 3. rewrite slice_app_skip. rewrite OL.
    f_equal. f_equal. change (qsum _) with (qsum (map (fun '(a, c) => (nat2q a * c)%Qc) (combine (seq 0 (x_mdim v)) (set_nth (repeat q0 (x_mdim v)) n q1)))).
    rewrite <- OL at 1. fold (wsum 0 (set_nth (repeat q0 (x_mdim v)) n q1)).
    rewrite (wsum_one_hot _ 0 (x_mdim v) n); [reflexivity|]. split; auto.
Qed.

Lemma get_app_at {A} (p : list A) x r : get (p ++ x :: r) (length p) = Ok x.
Proof. unfold get. rewrite nth_error_app2, Nat.sub_diag; auto. Qed.

Lemma encode_from vs : Forall xv_ok vs -> forall pre xs,
  Forall2 encodable (map x_kind vs) xs ->
  exists z, objective_to_model_from vs (length pre) (pre ++ xs) = Ok z /\
    length z = list_sum (map x_mdim vs) /\ encoding_row (map x_kind vs) z /\
    forall p r, model_to_objective_from vs (length p) (p ++ z ++ r) = Ok xs.
Proof.
  induction 1 as [|v vs Hv _ IH]; intros pre xs HF; simpl in HF.
  - inversion HF; subst. exists []. repeat split; auto. constructor.
  - inversion HF as [|? x ? xs' Hx HF']; subst.
    destruct (var_encode v x Hv Hx) as (b & Eb & Lb & Bb & Db).
    destruct (IH (pre ++ [x]) xs' HF') as (z & Ez & Lz & Rz & Dz).
    exists (b ++ z). simpl. rewrite get_app_at; simpl. rewrite Eb; simpl.
    rewrite app_length in Ez; simpl in Ez. rewrite Nat.add_1_r in Ez. rewrite <- app_assoc in Ez. simpl in Ez.
    rewrite Ez; simpl. repeat split.
    + rewrite app_length. lia.
    + constructor; auto.
    + intros p r. rewrite <- app_assoc, Db; simpl.
      specialize (Dz (p ++ b) r). rewrite app_length, Lb, <- app_assoc in Dz. rewrite Dz. reflexivity.
Qed.

Lemma row_roundtrip sp x : space_facts sp -> Forall2 encodable (kinds sp) x ->
  exists z, objective_to_model sp x = Ok z /\ length z = model_dimensionality sp /\ encoding_row (kinds sp) z /\
    model_to_objective sp z = Ok x.
Proof.
  intros F H. destruct (encode_from _ (sf_ok _ F) [] x H) as (z & A & B & C & D).
  exists z. repeat split; auto. specialize (D [] []). simpl in D. rewrite app_nil_r in D. exact D.
Qed.

Lemma atleast_2d_ne (X : mat) : X <> [] -> atleast_2d X = X.
Proof. destruct X; intro H; [destruct (H eq_refl)|reflexivity]. Qed.

Lemma matrix_roundtrip sp X : space_facts sp -> has_bandit sp = false -> X <> [] ->
  Forall (fun x => Forall2 encodable (kinds sp) x) X ->
  exists Z, unzip_inputs sp X = Ok Z /\ Forall (fun z => length z = model_dimensionality sp /\ encoding_row (kinds sp) z) Z /\
    length Z = length X /\ zip_inputs sp Z = Ok X.
Proof.
  intros F B NE H. unfold unzip_inputs, zip_inputs. rewrite B.
  assert (G : exists Z, mapM (objective_to_model sp) X = Ok Z /\
     Forall (fun z => length z = model_dimensionality sp /\ encoding_row (kinds sp) z) Z /\
     mapM (model_to_objective sp) Z = Ok X).
  { clear NE. induction H as [|x X Hx _ (Z & A & C & D)].
    - exists []. repeat split; auto.
    - destruct (row_roundtrip sp x F Hx) as (z & E1 & E2 & E3 & E4). exists (z :: Z). simpl.
      rewrite E1; simpl. rewrite A; simpl. rewrite E4; simpl. rewrite D; simpl. repeat split; auto. }
  destruct G as (Z & A & C & D). pose proof (mapM_length _ _ _ A) as LZ.
  exists Z. rewrite A; simpl. rewrite atleast_2d_ne by (intro; subst; destruct X; [auto|discriminate]).
  repeat split; auto. rewrite D; simpl. rewrite atleast_2d_ne; auto.
Qed.

(** ---- decode / encode ---- *)
Lemma var_decode v b : xv_ok v -> encoding_block (x_kind v) b ->
  length b = x_mdim v /\
  exists x, encodable (x_kind v) x /\ var_objective_to_model v x = Ok b /\
    forall p r, var_model_to_objective v (p ++ b ++ r) (length p) = Ok [x].
Proof.
  intros Hv Hb. unfold xv_ok in *. destruct (x_kind v) eqn:E; simpl in *.
  - destruct b as [|x [|]]; try discriminate. split; [lia|]. exists x. split; auto.
    destruct (var_encode v x) as (b & E1 & E2 & E3 & E4); unfold xv_ok; rewrite ?E; auto. exact I.
    unfold var_objective_to_model in *. rewrite E in *. injection E1 as <-. split; auto.
  - destruct b as [|x [|]]; try discriminate. split; [lia|]. exists x. split; auto.
    destruct (var_encode v x) as (b & E1 & E2 & E3 & E4); unfold xv_ok; rewrite ?E; auto. exact I.
    unfold var_objective_to_model in *. rewrite E in *. injection E1 as <-. split; auto.
  - destruct Hb.
  - destruct Hb as (i & O). assert (Hi : i < length cats) by apply O. split; [rewrite Hv; apply O|].
    exists (nat2q i). split; [eauto|].
    destruct (var_encode v (nat2q i)) as (b' & E1 & E2 & E3 & E4); unfold xv_ok; rewrite ?E; auto; [exists i; auto|].
    assert (b' = b); [|subst; auto].
    unfold var_objective_to_model in E1. rewrite E, py_int_nat2q, py_index_nat in E1 by lia. injection E1 as <-.
    rewrite Hv. eapply one_hot_unique; [|exact O]. apply one_hot_set_nth. auto.
Qed.

Lemma encode_from_decode vs : Forall xv_ok vs -> forall z,
  encoding_row (map x_kind vs) z ->
  exists xs, Forall2 encodable (map x_kind vs) xs /\
   (forall p r, model_to_objective_from vs (length p) (p ++ z ++ r) = Ok xs) /\
   forall pre, objective_to_model_from vs (length pre) (pre ++ xs) = Ok z.
Proof.
  induction 1 as [|v vs Hv _ IH]; intros z Hz; simpl in Hz.
  - inversion Hz; subst. exists []. repeat split; auto; constructor.
  - inversion Hz as [|? ? b r Hb Hr]; subst.
    destruct (var_decode v b Hv Hb) as (Lb & x & Hx & E1 & E2). destruct (IH r Hr) as (xs & A & B & C).
    exists (x :: xs). repeat split.
    + simpl. constructor; auto.
    + intros p r'. simpl. rewrite <- app_assoc, E2; simpl.
      specialize (B (p ++ b) r'). rewrite app_length, Lb, <- app_assoc in B. rewrite B. reflexivity.
    + intros pre. simpl. rewrite get_app_at; simpl. rewrite E1; simpl.
      specialize (C (pre ++ [x])). rewrite app_length, <- app_assoc in C; simpl in C. rewrite Nat.add_1_r in C.
      rewrite C. reflexivity.
Qed.

Lemma row_roundtrip2 sp z : space_facts sp -> encoding_row (kinds sp) z ->
  exists x, Forall2 encodable (kinds sp) x /\ model_to_objective sp z = Ok x /\ objective_to_model sp x = Ok z.
Proof.
  intros F H. destruct (encode_from_decode _ (sf_ok _ F) z H) as (xs & A & B & C).
  exists xs. split; auto. split; [|exact (C [])].
  specialize (B [] []). simpl in B. rewrite app_nil_r in B. exact B.
Qed.

Lemma matrix_roundtrip2 sp Z : space_facts sp -> has_bandit sp = false -> Z <> [] ->
  Forall (encoding_row (kinds sp)) Z ->
  exists X, zip_inputs sp Z = Ok X /\ unzip_inputs sp X = Ok Z /\ Forall (Forall2 encodable (kinds sp)) X.
Proof.
  intros F B NE H. unfold unzip_inputs, zip_inputs. rewrite B.
  assert (G : exists X, mapM (model_to_objective sp) Z = Ok X /\ mapM (objective_to_model sp) X = Ok Z /\
     Forall (Forall2 encodable (kinds sp)) X).
  { clear NE. induction H as [|z Z Hz _ (X & A & C & D)].
    - exists []; auto.
    - destruct (row_roundtrip2 sp z F Hz) as (x & E0 & E1 & E2). exists (x :: X). simpl.
      rewrite E1; simpl. rewrite A; simpl. rewrite E2; simpl. rewrite C; simpl. repeat split; auto. }
  destruct G as (X & A & C & D). pose proof (mapM_length _ _ _ A) as LX.
  exists X. rewrite A; simpl. rewrite atleast_2d_ne by (intro; subst; destruct Z; [auto|discriminate]).
  repeat split; auto. rewrite C; simpl. rewrite atleast_2d_ne; auto.
Qed.
