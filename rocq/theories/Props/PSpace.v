(** C01-C08: the design space.  Specification: Spec/SpaceSpec.v.  Model: Model/Space.v. *)
From Coq Require Import String List ZArith QArith Qcanon Bool Lia.
From Verif.Model Require Import Py Space.
From Verif.Spec Require Import SpaceSpec Examples.
From Verif.Proof Require Import Num Dec SpaceP RoundP ConstructP SpaceMain.
Import ListNotations.
Local Open Scope nat_scope.
Local Open Scope string_scope.

(** ---------------------------------------------------------------- C01 *)
Theorem C01_zip_unzip_identity : forall ds cs sp X,
  design_space ds cs = Ok sp -> bandit_free (kinds sp) -> X <> [] ->
  Forall (Forall2 encodable (kinds sp)) X ->
  exists Z, unzip_inputs sp X = Ok Z /\ length Z = length X /\
    Forall (fun z => length z = model_dimensionality sp) Z /\ zip_inputs sp Z = Ok X.
Proof. exact zip_unzip_main. Qed.
Print Assumptions C01_zip_unzip_identity.

(** In a space of bandits nothing is encoded: both conversions return the rows as they are. *)
Theorem C01_bandits : forall ds cs sp X, design_space ds cs = Ok sp -> ~ bandit_free (kinds sp) -> X <> [] ->
  unzip_inputs sp X = Ok X /\ zip_inputs sp X = Ok X.
Proof.
  intros ds cs sp X D B N. pose proof (design_space_facts _ _ _ D) as F. destruct (has_bandit sp) eqn:E; [|destruct (B (sf_nb _ F E))].
  unfold unzip_inputs, zip_inputs. rewrite E. destruct X; [congruence|]. split; reflexivity.
Qed.
Print Assumptions C01_bandits.

(** The guard on categorical values is needed: with a domain other than 0..k-1 the conversion of a value the user
    listed raises, or comes back changed. *)
Theorem C01_other_categories_refuted :
  (exists ds sp x, design_space ds None = Ok sp /\ Forall2 user_value (kinds sp) x /\
     unzip_inputs sp [x] = Raise IndexError) /\
  (exists ds sp x Z y, design_space ds None = Ok sp /\ Forall2 user_value (kinds sp) x /\
     unzip_inputs sp [x] = Ok Z /\ zip_inputs sp Z = Ok [y] /\ y <> x).
Proof. exact other_categories_witness. Qed.
Print Assumptions C01_other_categories_refuted.

Example C01_nonvacuous :
  exists sp, design_space ds_mixed None = Ok sp /\ bandit_free (kinds sp) /\ model_dimensionality sp = 6 /\
    Forall (Forall2 encodable (kinds sp)) [[q 1 2; z 7; z 2; z 4]; [z 0; z 1; z 0; z 9]] /\
    unzip_inputs sp [[q 1 2; z 7; z 2; z 4]] = Ok [[q 1 2; z 7; z 0; z 0; z 1; z 4]].
Proof.
  exists (the_space ds_mixed None). split; [vm_compute; reflexivity|].
  split; [repeat constructor|]. split; [reflexivity|]. split; [|vmeq].
  repeat constructor; simpl; auto; [exists 2|exists 0]; split; auto; vmeq.
Qed.

(** ---------------------------------------------------------------- C02 *)
Theorem C02_unzip_zip_identity : forall ds cs sp Z,
  design_space ds cs = Ok sp -> bandit_free (kinds sp) -> Z <> [] ->
  Forall (encoding_row (kinds sp)) Z ->
  exists X, zip_inputs sp Z = Ok X /\ Forall (Forall2 encodable (kinds sp)) X /\ unzip_inputs sp X = Ok Z.
Proof. exact unzip_zip_main. Qed.
Print Assumptions C02_unzip_zip_identity.

Theorem C02_encoding_injective : forall ds cs sp X X',
  design_space ds cs = Ok sp -> bandit_free (kinds sp) -> X <> [] -> X' <> [] ->
  Forall (Forall2 encodable (kinds sp)) X -> Forall (Forall2 encodable (kinds sp)) X' ->
  unzip_inputs sp X = unzip_inputs sp X' -> X = X'.
Proof. exact unzip_injective_main. Qed.
Print Assumptions C02_encoding_injective.

Example C02_nonvacuous :
  exists sp, design_space ds_mixed None = Ok sp /\ bandit_free (kinds sp) /\
    encoding_row (kinds sp) [q 1 2; z 7; z 0; z 0; z 1; z 4] /\
    zip_inputs sp [[q 1 2; z 7; z 0; z 0; z 1; z 4]] = Ok [[q 1 2; z 7; z 2; z 4]].
Proof.
  exists (the_space ds_mixed None). split; [vm_compute; reflexivity|].
  split; [repeat constructor|]. split; [|vmeq].
  apply (blocks_cons _ _ _ [_]); [reflexivity|]. apply (blocks_cons _ _ _ [_]); [reflexivity|].
  apply (blocks_cons _ _ _ [_; _; _]). { exists 2. repeat split; auto. intros [|[|[|j]]] Hj; vmeq || (simpl in Hj; lia). }
  apply (blocks_cons _ _ _ [_] []); [reflexivity|]. constructor.
Qed.

(** ---------------------------------------------------------------- C03, C04 *)
Theorem C03_round_optimum_in_domain : forall ds cs sp x,
  design_space ds cs = Ok sp -> Forall wf_kind (kinds sp) -> roundable (kinds sp) ->
  length x = model_dimensionality sp ->
  exists r, round_optimum sp [x] = Ok [r] /\ design_point (kinds sp) r.
Proof. exact round_in_domain. Qed.
Print Assumptions C03_round_optimum_in_domain.
(** One point at a time: no rows and several rows are refused. *)
Theorem C03_one_row : forall sp X, length X <> 1 -> round_optimum sp X = Raise ValueError.
Proof. intros sp [|x [|x' X]] H; [reflexivity|destruct (H eq_refl)|reflexivity]. Qed.
Print Assumptions C03_one_row.
(** A block of the wrong width for a bandit variable is refused, unless it has one entry, which numpy compares with every coordinate. *)
Theorem C03_bandit_width : forall v arms b a w, x_kind v = KBandit b arms -> arms <> [] -> (forall arm, In arm arms -> length arm = w) -> 2 <= w ->
  length a <> w -> length a <> 1 -> var_round v a = Raise ValueError.
Proof.
  intros v arms b a w K N W W2 La L1. unfold var_round. rewrite K. unfold round_bandit. destruct arms as [|arm arms]; [contradiction|].
  assert (E : bcast Qcminus arm a = Raise ValueError).
  { pose proof (W arm (or_introl eq_refl)) as Wa. unfold bcast. destruct (Nat.eqb_spec (length arm) (length a)); [lia|].
    destruct arm as [|? [|? ?]]; cbn in Wa; [lia | lia |]. destruct a as [|? [|? ?]]; [reflexivity | cbn in L1; lia | reflexivity]. }
  cbn [mapM]. rewrite E. reflexivity.
Qed.
Print Assumptions C03_bandit_width.
Example C03_bandit_width_nonvacuous : forall v, x_kind v = KBandit false [[z 1; z 2; z 3]; [z 4; z 5; z 6]] ->
  var_round v [z 1; z 2] = Raise ValueError /\ var_round v [z 1; z 2; z 4] = Ok (R2 [z 1; z 2; z 3]).
Proof.
  intros v K. split; [apply (C03_bandit_width v _ false _ 3 K); [discriminate | intros ? [<-|[<-|[]]]; reflexivity | repeat constructor | discriminate | discriminate]|].
  unfold var_round. rewrite K.
  assert (E : round_bandit [[z 1; z 2; z 3]; [z 4; z 5; z 6]] [z 1; z 2; z 4] = Ok [z 1; z 2; z 3]) by vmeq. now rewrite E.
Qed.

Theorem C04_round_optimum_is_projection : forall ds cs sp x,
  design_space ds cs = Ok sp -> Forall wf_kind (kinds sp) -> roundable (kinds sp) ->
  length x = model_dimensionality sp ->
  exists r, round_optimum sp [x] = Ok [r] /\ design_point (kinds sp) r /\
    (forall r', design_point (kinds sp) r' -> (dist2 x r <= dist2 x r')%Qc) /\
    (design_point (kinds sp) x -> r = x).
Proof. exact round_main. Qed.
Print Assumptions C04_round_optimum_is_projection.

Theorem C04_round_optimum_idempotent : forall ds cs sp x r,
  design_space ds cs = Ok sp -> Forall wf_kind (kinds sp) -> roundable (kinds sp) ->
  length x = model_dimensionality sp -> round_optimum sp [x] = Ok r -> round_optimum sp r = Ok r.
Proof. exact round_idempotent. Qed.
Print Assumptions C04_round_optimum_idempotent.

Example C03_C04_nonvacuous :
  (exists sp, design_space ds_mixed None = Ok sp /\ Forall wf_kind (kinds sp) /\ roundable (kinds sp) /\
     round_optimum sp [[z 5; q 1 3; q 1 10; q 1 2; q 2 5; z 6]] = Ok [[z 2; q 1 3; z 0; z 1; z 0; z 4]]) /\
  (exists sp, design_space ds_bandit None = Ok sp /\ Forall wf_kind (kinds sp) /\ roundable (kinds sp) /\
     round_optimum sp [[z (-1); z 3]] = Ok [[z (-2); z 3]]).
Proof.
  split.
  - exists (the_space ds_mixed None). split; [vm_compute; reflexivity|]. split; [|split; [|vmeq]].
    + repeat constructor; simpl; try discriminate; qcle_dec.
    + left. split; [repeat constructor|discriminate].
  - exists (the_space ds_bandit None). split; [vm_compute; reflexivity|]. split; [|split; [|vmeq]].
    + repeat constructor; try discriminate. simpl. intros a b [<-|[<-|[<-|[]]]] [<-|[<-|[<-|[]]]]; reflexivity.
    + right. eexists. eexists. reflexivity.
Qed.

(** ---------------------------------------------------------------- C05 *)
Theorem C05_model_space_layout : forall ds cs sp,
  design_space ds cs = Ok sp -> Forall wf_kind (kinds sp) -> bandit_free (kinds sp) ->
  model_dimensionality sp = total_width (kinds sp) /\
  (exists bs, get_bounds sp = Ok bs /\ length bs = model_dimensionality sp /\
     forall z, design_point (kinds sp) z ->
       Forall2 (fun x b => (fst b <= x)%Qc /\ (x <= snd b)%Qc) z bs) /\
  concat (map x_idx_mod (sp_xvars sp)) = seq 0 (model_dimensionality sp) /\
  map x_idx_obj (sp_xvars sp) = map (fun i => [i]) (seq 0 (objective_dimensionality sp)) /\
  (forall z, design_point (kinds sp) z ->
     Forall (fun v => exists b, valid_block (x_kind v) b /\ map (nth_error z) (x_idx_mod v) = map Some b) (sp_xvars sp)).
Proof. exact layout_main. Qed.
Print Assumptions C05_model_space_layout.

Example C05_nonvacuous :
  exists sp, design_space ds_mixed None = Ok sp /\ Forall wf_kind (kinds sp) /\ bandit_free (kinds sp) /\
    get_bounds sp = Ok [(z (-1), z 2); (z (-1), z 2); (z 0, z 1); (z 0, z 1); (z 0, z 1); (z 1, z 9)] /\
    map x_idx_mod (sp_xvars sp) = [[0]; [1]; [2; 3; 4]; [5]].
Proof.
  exists (the_space ds_mixed None). split; [vm_compute; reflexivity|]. split; [|split; [|split; [vmeq|vmeq]]].
  - repeat constructor; simpl; try discriminate; qcle_dec.
  - repeat constructor.
Qed.

(** ---------------------------------------------------------------- C06 *)
Theorem C06_construction_classified : forall ds cs, Forall shape_ok ds ->
  (malformed ds -> design_space ds cs = Raise InvalidConfigError) /\
  (~ malformed ds -> unnamed_with_dim ds -> design_space ds cs = Raise KeyError) /\
  (~ malformed ds -> ~ unnamed_with_dim ds -> list_bandit ds -> design_space ds cs = Raise AttributeError) /\
  (~ malformed ds -> ~ unnamed_with_dim ds -> ~ list_bandit ds ->
     exists sp, design_space ds cs = Ok sp /\
       expands 0 ds (map (fun x => (x_name x, x_kind x)) (sp_xvars sp)) /\
       objective_dimensionality sp = length (kinds sp) /\ model_dimensionality sp = total_width (kinds sp)).
Proof. exact construct_main. Qed.
Print Assumptions C06_construction_classified.

Example C06_nonvacuous :
  Forall shape_ok ds_mixed /\ ~ malformed ds_mixed /\ ~ unnamed_with_dim ds_mixed /\ ~ list_bandit ds_mixed /\
  Forall shape_ok (ds_bandit ++ ds_mixed) /\ malformed (ds_bandit ++ ds_mixed) /\
  map x_name (sp_xvars (the_space ds_mixed None)) = ["a_1"; "a_2"; "b"; "c"].
Proof. exact construct_example. Qed.

(** ---------------------------------------------------------------- C07 *)
Theorem C07_find_variable : forall sp n,
  ((~ exists v, In v (sp_xvars sp) /\ x_name v = n) <-> find_variable sp n = Raise InvalidVariableNameError) /\
  (forall v, find_variable sp n = Ok v -> In v (sp_xvars sp) /\ x_name v = n) /\
  (forall v, NoDup (map x_name (sp_xvars sp)) -> In v (sp_xvars sp) -> x_name v = n -> find_variable sp n = Ok v).
Proof. exact find_variable_spec. Qed.
Print Assumptions C07_find_variable.

(** Distinct names in the description do not make the expanded names distinct: the second 'x_1' hides the first. *)
Theorem C07_names_collide_refuted :
  exists ds sp v0 v2, design_space ds None = Ok sp /\
    map d_name ds = [Some "x"; Some "x_1"] /\
    nth_error (sp_xvars sp) 0 = Some v0 /\ nth_error (sp_xvars sp) 2 = Some v2 /\
    x_name v0 = "x_1" /\ x_kind v0 <> x_kind v2 /\ find_variable sp "x_1" = Ok v2.
Proof. exact names_collide_witness. Qed.
Print Assumptions C07_names_collide_refuted.

Example C07_nonvacuous :
  let sp := the_space ds_mixed None in
  NoDup (map x_name (sp_xvars sp)) /\ bind (find_variable sp "a_2") (fun v => Ok (x_idx_mod v)) = Ok [1] /\
  find_variable sp "a" = Raise InvalidVariableNameError.
Proof.
  split; [|split; vm_compute; reflexivity].
  vm_compute. repeat constructor; simpl; intuition discriminate.
Qed.

(** ---------------------------------------------------------------- C08 *)
Theorem C08_indicator_constraints : forall ds l sp X, design_space ds (Some l) = Ok sp -> X <> [] ->
  ((exists I, indicator_constraints sp X = Ok I) <->
   (forall c x, In c l -> In x X -> exists v, constraint_value c x v)) /\
  (forall I, indicator_constraints sp X = Ok I ->
    Forall2 (fun x i => (i = 1%Qc /\ forall c, In c l -> satisfies c x) \/
                        (i = 0%Qc /\ exists c, In c l /\ violates c x)) X I).
Proof. exact indicator_main. Qed.
Print Assumptions C08_indicator_constraints.

Theorem C08_no_constraints : forall ds sp X, design_space ds None = Ok sp -> X <> [] ->
  indicator_constraints sp X = Ok (map (fun _ => 1%Qc) X).
Proof. exact indicator_none. Qed.
Print Assumptions C08_no_constraints.

Example C08_nonvacuous :
  let c1 := mk_constr None (Some (fun x => Ok (nth 0 x 0 - z 1)%Qc)) in
  let c2 := mk_constr (Some (fun x => Ok (z 0 - nth 1 x 0)%Qc)) None in
  exists sp, design_space ds_mixed (Some [c1; c2]) = Ok sp /\
    indicator_constraints sp [[z 0; z 0; z 1; z 4]; [z 2; z 0; z 1; z 4]; [z 1; z (-1); z 0; z 1]] = Ok [1%Qc; 0%Qc; 0%Qc].
Proof. intros c1 c2. exists (the_space ds_mixed (Some [c1; c2])). split; [vm_compute; reflexivity|vmeq]. Qed.
