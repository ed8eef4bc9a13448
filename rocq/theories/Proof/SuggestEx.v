(** Concrete instances and counterexamples for C17-C29. *)
From Coq Require Import String List ZArith QArith Qcanon Bool Lia Permutation Sorting.Sorted.
From Verif.Model Require Import Py Space Design Optim.
From Verif.Spec Require Import SpaceSpec DesignSpec ContextSpec SuggestSpec Examples.
From Verif.Proof Require Import Num Dec SpaceP RoundP ConstructP ContextP ContextMain SuggestP SuggestMain.
Import ListNotations.
Local Open Scope nat_scope.
Local Open Scope string_scope.

(** a sorting function for the examples: insertion sort of the positions *)
Fixpoint ins (s : vec) (i : nat) (l : list nat) : list nat :=
  match l with
  | [] => [i]
  | j :: t => if qcle (nth i s q0) (nth j s q0) then i :: j :: t else j :: ins s i t
  end.
Definition isort (s : vec) : list nat := fold_right (ins s) [] (seq 0 (length s)).
Lemma ins_perm s i l : Permutation (ins s i l) (i :: l).
Proof.
  induction l as [|j l IH]; simpl; auto. destruct (qcle _ _); auto. rewrite IH. constructor.
Qed.
Lemma isort_perm s l : Permutation (fold_right (ins s) [] l) l.
Proof. induction l as [|i l IH]; simpl; auto. rewrite ins_perm. auto. Qed.
Lemma score_le_nth s i j : i < length s -> j < length s -> (nth i s q0 <= nth j s q0)%Qc -> score_le s i j.
Proof. intros Hi Hj H. exists (nth i s q0), (nth j s q0). repeat split; auto; apply nth_error_nth'; auto. Qed.
Lemma ins_sorted s i l : i < length s -> Forall (fun j => j < length s) l -> StronglySorted (score_le s) l -> StronglySorted (score_le s) (ins s i l).
Proof.
  intros Hi HF HS. induction HS as [|j l HS IH HJ]; simpl; [repeat constructor|]. inversion HF; subst.
  destruct (qcle (nth i s q0) (nth j s q0)) eqn:C.
  - apply qcle_spec in C. constructor; [constructor; auto|]. constructor; [apply score_le_nth; auto|].
    apply Forall_forall. intros k Hk. rewrite Forall_forall in HJ. destruct (HJ k Hk) as (a & b & E1 & E2 & L).
    exists (nth i s q0), b. repeat split; auto; [apply nth_error_nth'; auto|]. apply nth_error_nth with (d := q0) in E1. subst a. eapply Qcle_trans; eauto.
  - constructor; auto. apply Forall_forall. intros k Hk. apply (Permutation_in _ (ins_perm s i l)) in Hk. destruct Hk as [<-|Hk].
    + apply score_le_nth; auto. destruct (Qclt_le_dec (nth i s q0) (nth j s q0)) as [L|L]; auto.
      apply Qclt_le_weak in L. apply qcle_spec in L. congruence.
    + rewrite Forall_forall in HJ. auto.
Qed.
Lemma isort_ok : argsorts isort.
Proof.
  intro s. split; [apply isort_perm|]. unfold isort.
  assert (F : Forall (fun j => j < length s) (seq 0 (length s))) by (apply Forall_forall; intros j Hj; apply in_seq in Hj; lia).
  induction F as [|i l Hi F IH]; simpl; [constructor|]. apply ins_sorted; auto.
  apply Forall_forall. intros j Hj. apply (Permutation_in _ (isort_perm s l)) in Hj. rewrite Forall_forall in F. auto.
Qed.

Definition ds3 : list descr := [d_cont "a" (z 0) (z 1); d_cont "b" (z 0) (z 1); d_cont "c" (z 0) (z 1)].
Definition ds1 : list descr := [d_cont "a" (z 0) (z 1)].
Definition the_cm (sp : space) (oc : option context) : ctxmgr :=
  match context_manager sp oc with Ok cm => cm | Raise _ => mk_cm sp [] [] [] [] [] [] end.
(** draws: coordinate k of row i is u k i *)
Definition gen_of (u : nat -> nat -> Qc) : gen := mk_gen 3 (fun _ => mk_draws (fun v i => v + i) u (fun _ _ => z 99)) [] isort.
Definition acq_of (sp : space) (oc : option context) (f : acqf) : acq :=
  mk_acq sp f None "lbfgs" "max_objective" None (the_cm sp oc).
(** a solver that stays at its start / that always answers v *)
Definition stay : nat -> local_opt := fun _ _ x0 _ _ => Ok x0.
Definition answer (v : vec) : nat -> local_opt := fun _ _ _ _ _ => Ok v.

Definition ds_ctx : list descr :=
  [ with_dim (d_cont "var1" (z (-3)) (z 1)) 3; d_disc "var2" [z 0; z 1; z 2; z 3]; d_cont "var3" (z (-5)) (z 5); d_cat "var4" [z 0; z 1] ].
Definition ctx_test : context := [("var1_1", q 45 100); ("var3", q 52 100)].

Lemma ds_ctx_good : let sp := the_space ds_ctx None in
  design_space ds_ctx None = Ok sp /\ Forall wf_kind (kinds sp) /\ Forall canonical_cats (kinds sp) /\
  good_context sp (Some ctx_test) /\ context_manager sp (Some ctx_test) = Ok (the_cm sp (Some ctx_test)).
Proof.
  intro sp. split; [vm_compute; reflexivity|]. split; [repeat constructor; simpl; try discriminate; qcle_dec|].
  split. { repeat constructor. simpl. intros x [<-|[<-|[]]]; [exists 0|exists 1]; split; auto; vmeq. }
  split; [|vm_compute; reflexivity].
  split; [repeat constructor|]. split; [discriminate|]. split; [|split; [|split]].
  - repeat constructor; simpl; intuition discriminate.
  - repeat constructor; simpl; intuition discriminate.
  - intros n [<-|[<-|[]]]; simpl.
    + eexists. split; [left; reflexivity|]. reflexivity.
    + eexists. split; [do 4 right; left; reflexivity|]. reflexivity.
  - intros n x v H Hv E. simpl in H. destruct H as [[= <- <-]|[[= <- <-]|[]]]; simpl in Hv;
      repeat (destruct Hv as [<-|Hv]; [simpl in E; try discriminate E; split; qcle_dec|]); destruct Hv.
Qed.

Lemma gen_const_good x : (0 <= x)%Qc -> (x <= 1)%Qc -> good_gen (gen_of (fun _ _ => x)).
Proof. intros H1 H2. split; [intros k j i; auto|constructor]. Qed.

(** C19: a context value outside its domain is replaced by its rounding *)
Lemma context_outside_witness :
  let sp := the_space ds3 None in let oc := Some [("a", z 2)] in
  exists x, design_space ds3 None = Ok sp /\ context_manager sp oc = Ok (the_cm sp oc) /\
    acq_optimize (acq_of sp oc (fun _ => Ok q0)) 1 (gen_of (fun _ _ => q 1 3)) stay None = Some (Ok (x, q0)) /\
    nth_error x 0 = Some (z 1) /\ ~ carries_opt sp oc x.
Proof.
  intros sp oc. exists [z 1; q 1 3; q 1 3]. split; [vm_compute; reflexivity|]. split; [vm_compute; reflexivity|]. split; [vmeq|]. split; [reflexivity|].
  intro H. destruct (H "a" (z 2) (nth 0 (sp_xvars sp) (mk_xvar "" (KDisc []) 0 [] []))) as (b & E1 & E2).
  - left; reflexivity.
  - left. reflexivity.
  - reflexivity.
  - simpl in E1. subst b. simpl in E2. injection E2 as E2. discriminate.
Qed.

(** C21: the constraint on the second variable is applied to the third one *)
Definition c_second : constr := mk_constr None (Some (fun x => v <- get x 1 ;; Ok (v - q 1 2)%Qc)).
Definition c_third : constr := mk_constr None (Some (fun x => v <- get x 2 ;; Ok (v - q 1 2)%Qc)).
Lemma wrong_column_witness :
  let sp := the_space ds3 (Some [c_second]) in let oc := Some [("a", q 1 4)] in
  exists x t, design_space ds3 (Some [c_second]) = Ok sp /\ context_manager sp oc = Ok (the_cm sp oc) /\ good_context sp oc /\
    acq_anchors (acq_of sp oc (fun _ => Ok q0)) 1 (gen_of (fun k _ => if Nat.eqb k 0 then z 1 else q 1 4)) None = Some (Ok [x]) /\
    user_form sp x t /\ violates c_second t.
Proof.
  intros sp oc. exists [q 1 4; z 1; q 1 4], [q 1 4; z 1; q 1 4]. split; [vm_compute; reflexivity|]. split; [vm_compute; reflexivity|].
  split; [|split; [vmeq|split; [vmeq|]]].
  - split; [repeat constructor|]. split; [discriminate|]. split; [|split; [|split]].
    + repeat constructor; simpl; intuition discriminate.
    + repeat constructor; simpl; intuition discriminate.
    + intros n [<-|[]]. eexists. split; [left; reflexivity|reflexivity].
    + intros n x v H Hv E. simpl in H. destruct H as [[= <- <-]|[]]. simpl in Hv.
      repeat (destruct Hv as [<-|Hv]; [simpl in E; try discriminate E; split; qcle_dec|]); destruct Hv.
  - exists (q 1 2). split; [|qclt_dec]. eexists. split; [reflexivity|]. vmeq.
Qed.
Lemma index_error_witness :
  let sp := the_space ds3 (Some [c_third]) in let oc := Some [("a", q 1 4)] in
  acq_anchors (acq_of sp oc (fun _ => Ok q0)) 1 (gen_of (fun _ _ => q 1 4)) None = Some (Raise IndexError) /\
  (exists x, acq_anchors (acq_of sp None (fun _ => Ok q0)) 1 (gen_of (fun _ _ => q 1 4)) None = Some (Ok [x])).
Proof. intros sp oc. split; [vmeq|]. exists [q 1 4; q 1 4; q 1 4]. vmeq. Qed.

(** C22 *)
Lemma zero_pending_witness :
  known_to [[z 1]] (Some [[z 0]]) None [z 0] /\
  is_zipped_x_duplicate (duplicate_manager (the_space ds1 None) [[z 1]] (Some [[z 0]]) None) [z 0] = false.
Proof. split; [right; left; exists [[z 0]]; split; auto; left; auto|vm_compute; reflexivity]. Qed.

(** C26: six rows for a batch of size one *)
Definition spread : gen := gen_of (fun _ i => q (Z.of_nat (S i)) 10).
Lemma overshoot_witness :
  let sp := the_space ds1 None in
  random_batch (acq_of sp None (fun x => Ok (qsum x))) 1 1 6 (gen_of (fun _ _ => q 9 10)) spread stay (Some (duplicate_manager sp [[z 1]] None None))
  = Some (Ok [[q 9 10]; [q 1 10]; [q 2 10]; [q 3 10]; [q 4 10]; [q 5 10]]).
Proof. intro sp. vmeq. Qed.
(** C27: an all-zero optimum is dropped *)
Lemma zero_optimum_witness :
  let sp := the_space ds1 None in let a := acq_of sp None (fun x => Ok (qsum x)) in
  let dm := duplicate_manager sp [[z 1]] None None in
  acq_optimize a 1 (gen_of (fun _ _ => q 9 10)) (answer [z 0]) (Some dm) = Some (Ok ([z 0], z 0)) /\
  random_batch a 2 1 6 (gen_of (fun _ _ => q 9 10)) spread (answer [z 0]) (Some dm) = Some (Ok [[q 1 10]; [q 2 10]]).
Proof. intros sp a dm. split; vmeq. Qed.
(** C29: local penalization suggests an evaluated point although a duplicate manager is given *)
Lemma lp_duplicate_witness :
  let sp := the_space ds1 None in let a := acq_of sp None (fun x => Ok (qsum x)) in
  let dm := duplicate_manager sp [[q 1 10]] None None in
  exists st calls, lp_compute_batch 2 (fun _ => a) 1 (fun _ => spread) (fun _ => stay) (Some dm) None None =
    (st, calls, Some (Ok [[q 1 10]; [q 1 10]])) /\ ~ unknown (Some dm) [q 1 10].
Proof.
  intros sp a dm. exists None, [None; Some [[q 1 10]]]. split; [vmeq|]. intros (t & U & N). apply N. left.
  assert (Q : user_form sp [q 1 10] [q 1 10]) by vmeq. unfold dm in U. simpl in U. rewrite (user_form_unique _ _ _ _ U Q). reflexivity.
Qed.

Lemma unknown_context ds cs sp c : design_space ds cs = Ok sp -> Forall wf_kind (kinds sp) -> bandit_free (kinds sp) ->
  values_ok encodable sp c -> ~ names_known sp c -> context_manager sp (Some c) = Raise InvalidVariableNameError.
Proof.
  intros D W B V N. pose proof (design_space_facts _ _ _ D) as F. destruct (get_bounds_spec sp F W B) as (bs & Hb & _).
  eapply context_unknown_main; eauto. intros n x Hin _ v Hv. destruct (find_variable_spec sp n) as (_ & F2 & _). destruct (F2 v Hv) as (F3 & F4).
  split; [|split].
  - unfold bandit_free, kinds in B. rewrite Forall_map, Forall_forall in B. auto.
  - eapply V; eauto.
  - pose proof (sf_ok _ F) as O. rewrite Forall_forall in O. auto.
Qed.

Lemma linear_example :
  let sp := the_space ds3 None in let oc := Some [("b", q 1 2)] in let cm := the_cm sp oc in
  let f := fun x => Ok (nth 0 x 0 + z 2 * nth 1 x 0 + z 3 * nth 2 x 0)%Qc in
  f_nc cm f [z 1; z 1] = Ok (z 5) /\
  f_df_nc cm (fun x => y <- f x ;; Ok (y, [z 1; z 2; z 3])) [z 1; z 1] = Ok (z 5, [z 1; z 3]) /\
  (forall i di, nth_error [z 1; z 2; z 3] i = Some di -> partial f [z 1; q 1 2; z 1] i di).
Proof.
  intros sp oc cm f. split; [vmeq|]. split; [vmeq|]. intros i di Hi.
  exists (z 5). split; [vmeq|]. intros eps Heps. exists 1%Qc. split; [qclt_dec|]. intros h Nh _ _.
  destruct i as [|[|[|i]]]; simpl in Hi; [| | |destruct i; discriminate]; injection Hi as <-; eexists; (split; [reflexivity|]); simpl.
  - replace ((z 1 + h + z 2 * q 1 2 + z 3 * z 1 - z 5) / h - z 1)%Qc with 0%Qc; [split; [|apply Qclt_le_weak; auto]|].
    + apply Qclt_le_weak in Heps. apply Qcopp_le_compat in Heps. exact Heps.
    + replace (z 1 + h + z 2 * q 1 2 + z 3 * z 1 - z 5)%Qc with h by (assert (z 2 * q 1 2 = z 1)%Qc as -> by vmeq; assert (z 5 = z 1 + z 1 + z 3 * z 1)%Qc as -> by vmeq; ring).
      change (z 1) with 1%Qc. field. exact Nh.
  - replace ((z 1 + z 2 * (q 1 2 + h) + z 3 * z 1 - z 5) / h - z 2)%Qc with 0%Qc; [split; [|apply Qclt_le_weak; auto]|].
    + apply Qclt_le_weak in Heps. apply Qcopp_le_compat in Heps. exact Heps.
    + replace (z 1 + z 2 * (q 1 2 + h) + z 3 * z 1 - z 5)%Qc with (z 2 * h)%Qc.
      * field. exact Nh.
      * assert (z 5 = z 1 + z 2 * q 1 2 + z 3 * z 1)%Qc as -> by vmeq. ring.
  - replace ((z 1 + z 2 * q 1 2 + z 3 * (z 1 + h) - z 5) / h - z 3)%Qc with 0%Qc; [split; [|apply Qclt_le_weak; auto]|].
    + apply Qclt_le_weak in Heps. apply Qcopp_le_compat in Heps. exact Heps.
    + replace (z 1 + z 2 * q 1 2 + z 3 * (z 1 + h) - z 5)%Qc with (z 3 * h)%Qc.
      * field. exact Nh.
      * assert (z 5 = z 1 + z 2 * q 1 2 + z 3 * z 1)%Qc as -> by vmeq. ring.
Qed.
