(** Final forms of the design-space lemmas, as used in Props. *)
From Coq Require Import String List ZArith QArith Qcanon Bool Lia.
From Verif.Model Require Import Py Space.
From Verif.Spec Require Import SpaceSpec Examples.
From Verif.Proof Require Import Num Dec SpaceP RoundP ConstructP.
Import ListNotations.
Local Open Scope nat_scope.

Lemma bandit_free_has sp : space_facts sp -> bandit_free (kinds sp) -> has_bandit sp = false.
Proof.
  intros F B. destruct (has_bandit sp) eqn:E; auto. destruct (sf_b _ F E) as (H & N).
  exfalso. destruct (kinds sp); [auto|]. inversion H; inversion B; congruence.
Qed.

Lemma zip_unzip_main ds cs sp X : design_space ds cs = Ok sp -> bandit_free (kinds sp) -> X <> [] ->
  Forall (Forall2 encodable (kinds sp)) X ->
  exists Z, unzip_inputs sp X = Ok Z /\ length Z = length X /\
    Forall (fun z => length z = model_dimensionality sp) Z /\ zip_inputs sp Z = Ok X.
Proof.
  intros D B NE H. pose proof (design_space_facts _ _ _ D) as F.
  destruct (matrix_roundtrip sp X F (bandit_free_has _ F B) NE H) as (Z & A1 & A2 & A3 & A4).
  exists Z. repeat split; auto. eapply Forall_impl; [|exact A2]. simpl; tauto.
Qed.

Lemma unzip_zip_main ds cs sp Z : design_space ds cs = Ok sp -> bandit_free (kinds sp) -> Z <> [] ->
  Forall (encoding_row (kinds sp)) Z ->
  exists X, zip_inputs sp Z = Ok X /\ Forall (Forall2 encodable (kinds sp)) X /\ unzip_inputs sp X = Ok Z.
Proof.
  intros D B NE H. pose proof (design_space_facts _ _ _ D) as F.
  destruct (matrix_roundtrip2 sp Z F (bandit_free_has _ F B) NE H) as (X & A1 & A2 & A3).
  exists X. auto.
Qed.

Lemma unzip_injective_main ds cs sp X X' : design_space ds cs = Ok sp -> bandit_free (kinds sp) -> X <> [] -> X' <> [] ->
  Forall (Forall2 encodable (kinds sp)) X -> Forall (Forall2 encodable (kinds sp)) X' ->
  unzip_inputs sp X = unzip_inputs sp X' -> X = X'.
Proof.
  intros D B N N' H H' E.
  destruct (zip_unzip_main _ _ _ X D B N H) as (Z & A1 & _ & _ & A2).
  destruct (zip_unzip_main _ _ _ X' D B N' H') as (Z' & A1' & _ & _ & A2'). congruence.
Qed.

Lemma round_main ds cs sp x : design_space ds cs = Ok sp -> Forall wf_kind (kinds sp) -> roundable (kinds sp) ->
  length x = model_dimensionality sp ->
  exists r, round_optimum sp [x] = Ok [r] /\ design_point (kinds sp) r /\
    (forall r', design_point (kinds sp) r' -> (dist2 x r <= dist2 x r')%Qc) /\
    (design_point (kinds sp) x -> r = x).
Proof.
  intros D W R L. pose proof (design_space_facts _ _ _ D) as F.
  assert (G : exists r, round_optimum sp [x] = Ok [r] /\ design_point (kinds sp) r /\
    (forall r', design_point (kinds sp) r' -> (dist2 x r <= dist2 x r')%Qc)).
  { destruct R as [(B & NE)|(isarr & arms & K)].
    - apply round_optimum_spec; auto.
    - apply (round_optimum_bandit sp x isarr arms); auto. rewrite K in W. inversion W; auto. }
  destruct G as (r & A1 & A2 & A3). exists r. repeat split; auto.
  intro P. specialize (A3 x P). rewrite dist2_refl in A3. symmetry. apply dist2_zero; auto.
  rewrite (design_point_length _ _ W A2), (model_dim_width _ F) in *. auto.
Qed.

Lemma round_idempotent ds cs sp x r : design_space ds cs = Ok sp -> Forall wf_kind (kinds sp) -> roundable (kinds sp) ->
  length x = model_dimensionality sp -> round_optimum sp [x] = Ok r -> round_optimum sp r = Ok r.
Proof.
  intros D W R L E. destruct (round_main _ _ _ _ D W R L) as (r0 & A1 & A2 & _). rewrite A1 in E. injection E as <-.
  pose proof (design_space_facts _ _ _ D) as F.
  destruct (round_main ds cs sp r0 D W R) as (r1 & B1 & B2 & B3 & B4).
  { rewrite (model_dim_width _ F). apply design_point_length; auto. }
  rewrite B4 in B1 by auto. exact B1.
Qed.

Lemma set_indices_len vs : forall co cm, length (set_indices vs co cm) = length vs.
Proof. induction vs as [|v t IH]; intros; simpl; auto. destruct (x_kind v); simpl; auto. Qed.
Lemma set_indices_obj vs : forall co cm, map x_idx_obj (set_indices vs co cm) = map (fun i => [i]) (seq co (length vs)).
Proof. induction vs as [|v t IH]; intros; simpl; auto. destruct (x_kind v); simpl; f_equal; auto. Qed.

Lemma layout_main ds cs sp : design_space ds cs = Ok sp -> Forall wf_kind (kinds sp) -> bandit_free (kinds sp) ->
  model_dimensionality sp = total_width (kinds sp) /\
  (exists bs, get_bounds sp = Ok bs /\ length bs = model_dimensionality sp /\
     forall z, design_point (kinds sp) z ->
       Forall2 (fun x b => (fst b <= x)%Qc /\ (x <= snd b)%Qc) z bs) /\
  concat (map x_idx_mod (sp_xvars sp)) = seq 0 (model_dimensionality sp) /\
  map x_idx_obj (sp_xvars sp) = map (fun i => [i]) (seq 0 (objective_dimensionality sp)) /\
  (forall z, design_point (kinds sp) z ->
     Forall (fun v => exists b, valid_block (x_kind v) b /\ map (nth_error z) (x_idx_mod v) = map Some b) (sp_xvars sp)).
Proof.
  intros D W B. pose proof (design_space_facts _ _ _ D) as F.
  split; [apply model_dim_width; auto|]. split; [apply get_bounds_spec; auto|].
  unfold design_space in D. apply bind_ok in D as (vs & Hv & D).
  apply bind_ok in D as (cfg & Hc & D). apply bind_ok in D as (xss & Hx & D). injection D as <-.
  destruct (mapM_expand _ _ Hx) as (A & _ & _). unfold kinds, model_dimensionality, objective_dimensionality in *. simpl in *.
  rewrite set_indices_kind in *. rewrite set_indices_mdim.
  destruct (set_indices_partition (concat xss) A B 0 0) as (P1 & P2 & P3).
  split; auto. split; [|].
  - rewrite set_indices_len. apply set_indices_obj.
  - intros z Hz. apply (set_indices_cols valid_block (concat xss) A B) with (p := []); auto.
    intros k b Hk Hb. apply valid_block_width; auto. rewrite Forall_forall in W. auto.
Qed.

Lemma construct_main ds cs : Forall shape_ok ds ->
  (malformed ds -> design_space ds cs = Raise InvalidConfigError) /\
  (~ malformed ds -> unnamed_with_dim ds -> design_space ds cs = Raise KeyError) /\
  (~ malformed ds -> ~ unnamed_with_dim ds -> list_bandit ds -> design_space ds cs = Raise AttributeError) /\
  (~ malformed ds -> ~ unnamed_with_dim ds -> ~ list_bandit ds ->
     exists sp, design_space ds cs = Ok sp /\
       expands 0 ds (map (fun x => (x_name x, x_kind x)) (sp_xvars sp)) /\
       objective_dimensionality sp = length (kinds sp) /\ model_dimensionality sp = total_width (kinds sp)).
Proof.
  intro S. destruct (design_space_classified ds cs S) as (A1 & A2 & A3 & A4). repeat split; auto.
  intros M U L. destruct (A4 M U L) as (sp & D & E). exists sp. repeat split; auto.
  - unfold objective_dimensionality, kinds. rewrite map_length. auto.
  - apply model_dim_width. eapply design_space_facts; eauto.
Qed.

Lemma indicator_main ds l sp X : design_space ds (Some l) = Ok sp -> X <> [] ->
  ((exists I, indicator_constraints sp X = Ok I) <-> (forall c x, In c l -> In x X -> exists v, constraint_value c x v)) /\
  (forall I, indicator_constraints sp X = Ok I ->
    Forall2 (fun x i => (i = 1%Qc /\ forall c, In c l -> satisfies c x) \/ (i = 0%Qc /\ exists c, In c l /\ violates c x)) X I).
Proof. intros D NE. apply indicator_spec; auto. apply design_space_constraints in D. auto. Qed.

Lemma indicator_none ds sp X : design_space ds None = Ok sp -> X <> [] ->
  indicator_constraints sp X = Ok (map (fun _ => 1%Qc) X).
Proof.
  intros D NE. apply design_space_constraints in D. unfold indicator_constraints. rewrite D, (atleast_2d_ne X NE).
  f_equal. clear. induction X; simpl; auto. f_equal; auto.
Qed.

Lemma round_in_domain ds cs sp x : design_space ds cs = Ok sp -> Forall wf_kind (kinds sp) -> roundable (kinds sp) ->
  length x = model_dimensionality sp ->
  exists r, round_optimum sp [x] = Ok [r] /\ design_point (kinds sp) r.
Proof. intros D W R L. destruct (round_main _ _ _ _ D W R L) as (r & A & B & _). exists r. auto. Qed.

Local Open Scope string_scope.

Lemma other_categories_witness :
  (exists ds sp x, design_space ds None = Ok sp /\ Forall2 user_value (kinds sp) x /\
     unzip_inputs sp [x] = Raise IndexError) /\
  (exists ds sp x Z y, design_space ds None = Ok sp /\ Forall2 user_value (kinds sp) x /\
     unzip_inputs sp [x] = Ok Z /\ zip_inputs sp Z = Ok [y] /\ y <> x).
Proof.
  split.
  - exists [d_cat "c" [z 1; z 2; z 3]], (the_space [d_cat "c" [z 1; z 2; z 3]] None), [z 3].
    split; [vm_compute; reflexivity|]. split; [|vmeq]. vm_compute the_space. constructor; [simpl; auto|constructor].
  - exists [d_cat "c" [z (-1); z 0; z 1]], (the_space [d_cat "c" [z (-1); z 0; z 1]] None), [z (-1)], [[z 0; z 0; z 1]], [z 2].
    split; [vm_compute; reflexivity|]. split; [repeat constructor; simpl; auto|]. split; [vmeq|]. split; [vmeq|].
    intro H. apply (f_equal (fun l => eqd l [z 2])) in H. vm_compute in H. discriminate.
Qed.

Lemma names_collide_witness :
  exists ds sp v0 v2, design_space ds None = Ok sp /\
    map d_name ds = [Some "x"; Some "x_1"] /\
    nth_error (sp_xvars sp) 0 = Some v0 /\ nth_error (sp_xvars sp) 2 = Some v2 /\
    x_name v0 = "x_1" /\ x_kind v0 <> x_kind v2 /\ find_variable sp "x_1" = Ok v2.
Proof.
  exists [with_dim (d_cont "x" (z 0) (z 1)) 2; d_disc "x_1" [z 5; z 6]].
  exists (the_space [with_dim (d_cont "x" (z 0) (z 1)) 2; d_disc "x_1" [z 5; z 6]] None).
  eexists. eexists. split; [vm_compute; reflexivity|]. split; [reflexivity|].
  split; [vm_compute; reflexivity|]. split; [vm_compute; reflexivity|]. split; [reflexivity|]. split; [discriminate|].
  vm_compute. reflexivity.
Qed.

Lemma construct_example :
  Forall shape_ok ds_mixed /\ ~ malformed ds_mixed /\ ~ unnamed_with_dim ds_mixed /\ ~ list_bandit ds_mixed /\
  Forall shape_ok (ds_bandit ++ ds_mixed) /\ malformed (ds_bandit ++ ds_mixed) /\
  map x_name (sp_xvars (the_space ds_mixed None)) = ["a_1"; "a_2"; "b"; "c"].
Proof.
  assert (S1 : Forall shape_ok ds_mixed).
  { repeat (apply Forall_cons || apply Forall_nil); unfold shape_ok; intros dom E; injection E as <-;
      unfold descr_type; simpl; repeat split; intro; try discriminate; eauto. }
  split; auto. split.
  { intros [(d & I & H)|((d & I & H) & _)].
    - simpl in I. destruct I as [<-|[<-|[<-|[]]]]; destruct H as [H|[H|(H & _)]]; try discriminate; apply H; simpl; auto 6.
    - simpl in I. destruct I as [<-|[<-|[<-|[]]]]; discriminate. }
  split. { intros (d & n & I & H & _). simpl in I. destruct I as [<-|[<-|[<-|[]]]]; discriminate. }
  split. { intros (d & n & I & H & _). simpl in I. destruct I as [<-|[<-|[<-|[]]]]; discriminate. }
  split. { apply Forall_app. split; auto. repeat (apply Forall_cons || apply Forall_nil); unfold shape_ok; intros dom E; injection E as <-;
      unfold descr_type; simpl; repeat split; intro; try discriminate; eauto. }
  split; [|reflexivity].
  right. split; eexists; (split; [|]). left; reflexivity. reflexivity. right; left; reflexivity. discriminate.
Qed.
