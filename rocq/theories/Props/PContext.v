(** C17-C21: contexts.  Specification: Spec/ContextSpec.v, Spec/SuggestSpec.v.  Model: Model/Optim.v. *)
From Coq Require Import String List ZArith QArith Qcanon Bool Lia Permutation Sorting.Sorted.
From Verif.Model Require Import Py Space Design Optim.
From Verif.Spec Require Import SpaceSpec DesignSpec ContextSpec SuggestSpec Examples.
From Verif.Proof Require Import Num Dec SpaceP ContextP ContextMain AnchorP SuggestP SuggestMain ConstraintMain SuggestEx.
Import ListNotations.
Local Open Scope nat_scope.
Local Open Scope string_scope.

(** ---------------------------------------------------------------- C17 *)
Theorem C17_context_expansion : forall ds cs sp c,
  design_space ds cs = Ok sp -> Forall wf_kind (kinds sp) -> bandit_free (kinds sp) ->
  distinct_names sp -> is_dict c -> names_known sp c -> values_ok encodable sp c ->
  exists cm, context_manager sp (Some c) = Ok cm /\
    (forall v, length v = length (cm_noncontext_index cm) ->
       exists row, expand_vector cm [v] = Ok [row] /\ length row = model_dimensionality sp /\
         carries sp c row /\ restricts sp c row v) /\
    (forall row, length row = model_dimensionality sp -> carries sp c row ->
       exists v, length v = length (cm_noncontext_index cm) /\ restricts sp c row v /\ expand_vector cm [v] = Ok [row]) /\
    (forall X, X <> [] -> Forall (fun v => length v = length (cm_noncontext_index cm)) X ->
       exists rows, expand_vector cm X = Ok rows /\ Forall2 (fun v row => expand_vector cm [v] = Ok [row]) X rows).
Proof. exact context_expand_main. Qed.
Print Assumptions C17_context_expansion.

(** The expectations of the repository's own test_context_manager.py. *)
Example C17_nonvacuous :
  let sp := the_space ds_ctx None in let cm := the_cm sp (Some ctx_test) in
  good_context sp (Some ctx_test) /\ context_manager sp (Some ctx_test) = Ok cm /\
  expand_vector cm [[z 0; z 0; z 0; z 0; z 0]] = Ok [[q 45 100; z 0; z 0; z 0; q 52 100; z 0; z 0]].
Proof. pose proof ds_ctx_good as H. cbv zeta in *. split; [apply H|]. split; [apply H|]. vmeq. Qed.

(** ---------------------------------------------------------------- C18 *)
Theorem C18_context_columns_partition : forall ds cs sp c cm,
  design_space ds cs = Ok sp -> Forall wf_kind (kinds sp) -> bandit_free (kinds sp) ->
  distinct_names sp -> is_dict c -> names_known sp c -> values_ok encodable sp c -> context_manager sp (Some c) = Ok cm ->
  NoDup (cm_context_index cm) /\ (forall j, In j (cm_context_index cm) <-> context_column sp c j) /\
  free_columns sp c (cm_noncontext_index cm) /\
  Permutation (cm_context_index cm ++ cm_noncontext_index cm) (seq 0 (model_dimensionality sp)) /\
  exists bs, get_bounds sp = Ok bs /\ map (nth_error bs) (cm_noncontext_index cm) = map Some (cm_noncontext_bounds cm).
Proof. exact context_partition_main. Qed.
Print Assumptions C18_context_columns_partition.

Theorem C18_no_context : forall ds cs sp,
  design_space ds cs = Ok sp -> Forall wf_kind (kinds sp) -> bandit_free (kinds sp) ->
  exists cm, context_manager sp None = Ok cm /\ cm_context_index cm = [] /\
    cm_noncontext_index cm = seq 0 (model_dimensionality sp) /\ get_bounds sp = Ok (cm_noncontext_bounds cm) /\
    forall row, length row = model_dimensionality sp -> expand_vector cm [row] = Ok [row].
Proof. exact context_none_main. Qed.
Print Assumptions C18_no_context.

(** An unknown name raises InvalidVariableNameError (the values of the known names being usable). *)
Theorem C18_unknown_context_variable : forall ds cs sp c,
  design_space ds cs = Ok sp -> Forall wf_kind (kinds sp) -> bandit_free (kinds sp) -> values_ok encodable sp c ->
  ~ names_known sp c -> context_manager sp (Some c) = Raise InvalidVariableNameError.
Proof. exact unknown_context. Qed.
Print Assumptions C18_unknown_context_variable.

Example C18_nonvacuous :
  let sp := the_space ds_ctx None in let cm := the_cm sp (Some ctx_test) in
  cm_noncontext_index cm = [1; 2; 3; 5; 6] /\ cm_context_index cm = [0; 4] /\
  cm_noncontext_bounds cm = [(z (-3), z 1); (z (-3), z 1); (z 0, z 3); (z 0, z 1); (z 0, z 1)] /\
  context_manager sp (Some [("var1", z 0)]) = Raise InvalidVariableNameError.
Proof. cbv zeta. repeat split; vmeq. Qed.

(** ---------------------------------------------------------------- C19 *)
(** A point of the design space carrying the context: [good_row sp oc x] is design_point (kinds sp) x /\ carries_opt sp oc x. *)
Theorem C19_sequential_carries_context : forall ds cs sp oc cm a ns g loc odm x fx,
  design_space ds cs = Ok sp -> Forall wf_kind (kinds sp) -> Forall canonical_cats (kinds sp) ->
  good_context sp oc -> context_manager sp oc = Ok cm -> aq_space a = sp -> aq_cm a = cm -> good_gen g -> 1 <= ns ->
  acq_optimize a ns g loc odm = Some (Ok (x, fx)) -> design_point (kinds sp) x /\ carries_opt sp oc x.
Proof. intros ds cs sp oc cm a ns g loc odm x fx D W CC G E Es Ec GG N H. exact (acq_good ds cs sp oc cm D W CC G E a ns g loc odm x fx Es Ec GG N H). Qed.
Print Assumptions C19_sequential_carries_context.

Theorem C19_random_batch_carries_context : forall ds cs sp oc cm a size ns ns' g g' loc odm B,
  design_space ds cs = Ok sp -> Forall wf_kind (kinds sp) -> Forall canonical_cats (kinds sp) ->
  good_context sp oc -> context_manager sp oc = Ok cm -> aq_space a = sp -> aq_cm a = cm ->
  good_gen g -> good_gen g' -> 1 <= ns -> 1 <= ns' ->
  random_batch a size ns ns' g g' loc odm = Some (Ok B) ->
  Forall (fun x => design_point (kinds sp) x /\ carries_opt sp oc x) B.
Proof. intros ds cs sp oc cm a size ns ns' g g' loc odm B D W CC G E. exact (random_good ds cs sp oc cm D W CC G E a size ns ns' g g' loc odm B). Qed.
Print Assumptions C19_random_batch_carries_context.

Theorem C19_thompson_batch_carries_context : forall ds cs sp oc cm a ts size ns' g' loc odm B,
  design_space ds cs = Ok sp -> Forall wf_kind (kinds sp) -> Forall canonical_cats (kinds sp) ->
  good_context sp oc -> context_manager sp oc = Ok cm -> aq_space a = sp -> good_gen g' -> 1 <= ns' ->
  thompson_batch a ts size ns' g' loc odm (Some cm) = Some (Ok B) ->
  Forall (fun x => design_point (kinds sp) x /\ carries_opt sp oc x) B.
Proof. intros ds cs sp oc cm a ts size ns' g' loc odm B D W CC G E. exact (thompson_good ds cs sp oc cm D W CC G E a ts size ns' g' loc odm B). Qed.
Print Assumptions C19_thompson_batch_carries_context.

Theorem C19_local_penalization_carries_context : forall ds cs sp oc cm size pen ns g loc odm ocm st st' calls B,
  design_space ds cs = Ok sp -> Forall wf_kind (kinds sp) -> Forall canonical_cats (kinds sp) ->
  good_context sp oc -> context_manager sp oc = Ok cm ->
  (forall P, aq_space (pen P) = sp /\ aq_cm (pen P) = cm) -> (forall k, good_gen (g k)) -> 1 <= ns ->
  lp_compute_batch size pen ns g loc odm ocm st = (st', calls, Some (Ok B)) ->
  Forall (fun x => design_point (kinds sp) x /\ carries_opt sp oc x) B.
Proof. exact lp_good. Qed.
Print Assumptions C19_local_penalization_carries_context.

(** The optimization succeeds whenever the acquisition is defined on the design space, some anchor was found and the
    solver returns vectors of the right length. *)
Theorem C19_optimize_succeeds : forall ds cs sp oc cm a ns g loc odm A o,
  design_space ds cs = Ok sp -> Forall wf_kind (kinds sp) -> Forall canonical_cats (kinds sp) ->
  good_context sp oc -> context_manager sp oc = Ok cm -> aq_space a = sp -> aq_cm a = cm -> good_gen g -> 1 <= ns ->
  acq_anchors a ns g odm = Some (Ok A) -> A <> [] -> choose_optimizer (aq_optimizer a) = Ok o ->
  (forall x, design_point (kinds sp) x -> exists y, aq_f a x = Ok y) ->
  (forall dm, odm = Some dm -> dm_space dm = sp) ->
  (forall k x0 f h, exists v, run_optimizer o (cm_noncontext_bounds cm) (loc k) x0 f h = Ok v /\ length v = length x0) ->
  exists x fx, acq_optimize a ns g loc odm = Some (Ok (x, fx)).
Proof. intros ds cs sp oc cm a ns g loc odm A o D W CC G E. exact (acq_total ds cs sp oc cm D W CC G E a ns g loc odm A o). Qed.
Print Assumptions C19_optimize_succeeds.

Theorem C19_context_outside_domain_refuted :
  let sp := the_space ds3 None in let oc := Some [("a", z 2)] in
  exists x, design_space ds3 None = Ok sp /\ context_manager sp oc = Ok (the_cm sp oc) /\
    acq_optimize (acq_of sp oc (fun _ => Ok q0)) 1 (gen_of (fun _ _ => q 1 3)) stay None = Some (Ok (x, q0)) /\
    nth_error x 0 = Some (z 1) /\ ~ carries_opt sp oc x.
Proof. exact context_outside_witness. Qed.
Print Assumptions C19_context_outside_domain_refuted.

Example C19_nonvacuous :
  let sp := the_space ds_ctx None in let oc := Some ctx_test in let cm := the_cm sp oc in
  good_context sp oc /\ Forall canonical_cats (kinds sp) /\ context_manager sp oc = Ok cm /\ good_gen (gen_of (fun _ _ => q 1 2)) /\
  acq_optimize (acq_of sp oc (fun x => Ok (qsum x))) 2 (gen_of (fun _ _ => q 1 2)) (answer [z 7; z 7; z 7; z 7; z 7]) None =
    Some (Ok ([q 45 100; z 1; z 1; z 3; q 52 100; z 1; z 0], q 697 100)).
Proof.
  pose proof ds_ctx_good as (A & B & C & D & E). cbv zeta in *. split; [exact D|]. split; [exact C|]. split; [exact E|].
  split; [apply gen_const_good; qcle_dec|vmeq].
Qed.

(** ---------------------------------------------------------------- C20 *)
Theorem C20_restricted_objective_and_gradient : forall ds cs sp c cm f g v,
  design_space ds cs = Ok sp -> Forall wf_kind (kinds sp) -> bandit_free (kinds sp) ->
  distinct_names sp -> is_dict c -> names_known sp c -> values_ok encodable sp c -> context_manager sp (Some c) = Ok cm ->
  length v = length (cm_noncontext_index cm) ->
  exists row, expand_vector cm [v] = Ok [row] /\ f_nc cm f v = f row /\
    (forall y d, g row = Ok (y, d) -> length d = model_dimensionality sp ->
       exists d', f_df_nc cm g v = Ok (y, d') /\ length d' = length v /\
         ((forall i di, nth_error d i = Some di -> partial f row i di) ->
          forall j dj, nth_error d' j = Some dj -> partial (f_nc cm f) v j dj)).
Proof. exact context_objective_main. Qed.
Print Assumptions C20_restricted_objective_and_gradient.

(** A linear function: the derivative hypothesis is met. *)
Example C20_nonvacuous :
  let sp := the_space ds3 None in let oc := Some [("b", q 1 2)] in let cm := the_cm sp oc in
  let f := fun x => Ok (nth 0 x 0 + z 2 * nth 1 x 0 + z 3 * nth 2 x 0)%Qc in
  f_nc cm f [z 1; z 1] = Ok (z 5) /\
  f_df_nc cm (fun x => y <- f x ;; Ok (y, [z 1; z 2; z 3])) [z 1; z 1] = Ok (z 5, [z 1; z 3]) /\
  (forall i di, nth_error [z 1; z 2; z 3] i = Some di -> partial f [z 1; q 1 2; z 1] i di).
Proof. exact linear_example. Qed.

(** ---------------------------------------------------------------- C21 *)
(** What holds: the constraints hold for the part of the configuration outside the context (the whole configuration
    when there is no context) ... *)
Theorem C21_anchors_feasible_without_context_columns : forall ds cs sp oc cm ns g u X,
  design_space ds (Some cs) = Ok sp -> Forall wf_kind (kinds sp) -> Forall canonical_cats (kinds sp) ->
  good_context sp oc -> context_manager sp oc = Ok cm -> good_gen g -> 1 <= ns ->
  anchor_candidates sp "random" ns g u (Some cm) = Some (Ok X) ->
  Forall (fun x => exists t, user_form sp x t /\ feasible cs (free_part sp oc t)) X.
Proof. intros ds cs sp oc cm ns g u X D W CC G E. exact (candidates_feasible ds cs sp oc cm D W CC G E ns g u X). Qed.
Print Assumptions C21_anchors_feasible_without_context_columns.

(** ... so all anchor points are feasible when there is no context, or when dropping the context columns does not make
    an infeasible configuration feasible. *)
Theorem C21_anchors_feasible : forall ds cs sp oc cm ns g scores k odm u A,
  design_space ds (Some cs) = Ok sp -> Forall wf_kind (kinds sp) -> Forall canonical_cats (kinds sp) ->
  good_context sp oc -> context_manager sp oc = Ok cm -> good_gen g -> 1 <= ns ->
  (oc = None \/ forall t, feasible cs (free_part sp oc t) -> feasible cs t) ->
  anchor_get sp "random" ns g scores k odm u (Some cm) = Some (Ok A) ->
  Forall (fun x => exists t, user_form sp x t /\ feasible cs t) A.
Proof.
  intros ds cs sp oc cm ns g scores k odm u A D W CC G E GG N HP H. apply anchor_get_in in H as (X & HX & HI).
  pose proof (candidates_feasible ds cs sp oc cm D W CC G E ns g u X GG N HX) as F. rewrite Forall_forall in F. apply Forall_forall.
  intros x Hx. destruct (F x (proj1 (HI x Hx))) as (t & U & FT). exists t. split; auto. destruct HP as [->|HP]; auto.
Qed.
Print Assumptions C21_anchors_feasible.

Theorem C21_wrong_column_refuted :
  let sp := the_space ds3 (Some [c_second]) in let oc := Some [("a", q 1 4)] in
  exists x t, design_space ds3 (Some [c_second]) = Ok sp /\ context_manager sp oc = Ok (the_cm sp oc) /\ good_context sp oc /\
    acq_anchors (acq_of sp oc (fun _ => Ok q0)) 1 (gen_of (fun k _ => if Nat.eqb k 0 then z 1 else q 1 4)) None = Some (Ok [x]) /\
    user_form sp x t /\ violates c_second t.
Proof. exact wrong_column_witness. Qed.
Print Assumptions C21_wrong_column_refuted.

Theorem C21_index_error_refuted :
  let sp := the_space ds3 (Some [c_third]) in let oc := Some [("a", q 1 4)] in
  acq_anchors (acq_of sp oc (fun _ => Ok q0)) 1 (gen_of (fun _ _ => q 1 4)) None = Some (Raise IndexError) /\
  (exists x, acq_anchors (acq_of sp None (fun _ => Ok q0)) 1 (gen_of (fun _ _ => q 1 4)) None = Some (Ok [x])).
Proof. exact index_error_witness. Qed.
Print Assumptions C21_index_error_refuted.

Example C21_nonvacuous :
  let sp := the_space ds3 (Some [c_second]) in
  good_context sp None /\ context_manager sp None = Ok (the_cm sp None) /\
  anchor_candidates sp "random" 1 (gen_of (fun k _ => if Nat.eqb k 0 then z 1 else q 1 4)) false (Some (the_cm sp None)) =
    Some (Ok [[z 1; q 1 4; q 1 4]]).
Proof.
  cbv zeta. split; [|split; [vm_compute; reflexivity|vmeq]].
  split; [left; repeat constructor|]. left. split; [repeat constructor|discriminate].
Qed.
