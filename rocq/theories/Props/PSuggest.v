(** C22-C29: duplicates, anchor points, the acquisition optimizer and the batch evaluators.
    Specification: Spec/SuggestSpec.v.  Model: Model/Optim.v. *)
From Coq Require Import String List ZArith QArith Qcanon Bool Lia Permutation Sorting.Sorted.
From Verif.Model Require Import Py Space Design Optim.
From Verif.Spec Require Import SpaceSpec DesignSpec ContextSpec SuggestSpec Examples.
From Verif.Proof Require Import Num Dec SpaceP AnchorP SuggestP SuggestMain ScoreP SuggestEx.
Import ListNotations.
Local Open Scope nat_scope.
Local Open Scope string_scope.

(** ---------------------------------------------------------------- C22 *)
Theorem C22_duplicates_are_the_known_rows : forall sp X pending ignored x t,
  (forall P, pending = Some P -> has_nonzero P) -> (forall P, ignored = Some P -> has_nonzero P) ->
  let dm := duplicate_manager sp X pending ignored in
  (is_zipped_x_duplicate dm t = true <-> known_to X pending ignored t) /\
  (user_form sp x t -> exists b, is_unzipped_x_duplicate dm x = Ok b /\ (b = true <-> known_to X pending ignored t)).
Proof. exact duplicate_manager_main. Qed.
Print Assumptions C22_duplicates_are_the_known_rows.

(** What is true of arbitrary matrices: evaluated rows are always recognised, and nothing unknown ever is. *)
Theorem C22_duplicates_in_general : forall sp X pending ignored t,
  let dm := duplicate_manager sp X pending ignored in
  (In t X -> is_zipped_x_duplicate dm t = true) /\
  (is_zipped_x_duplicate dm t = true -> known_to X pending ignored t) /\
  ((exists x, In x t /\ x <> 0%Qc) -> known_to X pending ignored t -> is_zipped_x_duplicate dm t = true).
Proof. exact duplicate_manager_general. Qed.
Print Assumptions C22_duplicates_in_general.

Theorem C22_zero_pending_refuted :
  known_to [[z 1]] (Some [[z 0]]) None [z 0] /\
  is_zipped_x_duplicate (duplicate_manager (the_space ds1 None) [[z 1]] (Some [[z 0]]) None) [z 0] = false.
Proof. exact zero_pending_witness. Qed.
Print Assumptions C22_zero_pending_refuted.

Example C22_nonvacuous :
  let sp := the_space ds_mixed None in
  let dm := duplicate_manager sp [[z 0; z 1; z 2; z 4]] (Some [[z 0; z 0; z 1; z 4]]) None in
  has_nonzero [[z 0; z 0; z 1; z 4]] /\ user_form sp [z 0; z 0; z 0; z 1; z 0; z 4] [z 0; z 0; z 1; z 4] /\
  is_unzipped_x_duplicate dm [z 0; z 0; z 0; z 1; z 0; z 4] = Ok true /\
  is_unzipped_x_duplicate dm [z 0; z 0; z 1; z 0; z 0; z 4] = Ok false.
Proof.
  cbv zeta. split; [|split; [vmeq|split; vmeq]]. exists [z 0; z 0; z 1; z 4], (z 1). simpl. split; auto. split; auto. qcne_dec.
Qed.

(** ---------------------------------------------------------------- C23 *)
(** [W]: the candidate rows (design points with the context added); [V]: those that are not duplicates. *)
Theorem C23_anchor_points : forall sp design ns g scores num odm unique ocm W,
  anchor_candidates sp design ns g unique ocm = Some (Ok W) -> argsorts (g_argsort g) -> Forall (zippable odm) W ->
  exists V, selects (unknown odm) W V /\
    (V = [] -> anchor_get sp design ns g scores num odm unique ocm = Some (Raise FullyExplored)) /\
    (forall s, V <> [] -> scores V = Ok s -> length s = length V ->
       exists A, anchor_get sp design ns g scores num odm unique ocm = Some (Ok A) /\ length A = Nat.min num (length V) /\
         best_of V s A).
Proof. exact anchor_get_main. Qed.
Print Assumptions C23_anchor_points.

(** With the default anchor logic the starting points are the (at most five) new candidates of lowest acquisition value. *)
Theorem C23_lowest_acquisition : forall a ns g odm W, aq_logic a = "max_objective" ->
  anchor_candidates (aq_space a) "random" ns g false (Some (aq_cm a)) = Some (Ok W) ->
  argsorts (g_argsort g) -> Forall (zippable odm) W ->
  exists V, selects (unknown odm) W V /\ (V = [] -> acq_anchors a ns g odm = Some (Raise FullyExplored)) /\
    forall s, V <> [] -> Forall2 (fun v y => aq_f a v = Ok y) V s ->
      exists A, acq_anchors a ns g odm = Some (Ok A) /\ length A = Nat.min 5 (length V) /\ best_of V s A.
Proof. exact lowest_acquisition. Qed.
Print Assumptions C23_lowest_acquisition.

(** With Thompson sampling they are those of lowest sampled value: mean plus deviation times a standard normal draw. *)
Theorem C23_lowest_sample : forall a predict nrm ns g odm W, aq_logic a = "thompson_sampling" ->
  aq_ts a = Some (thompson_scores predict nrm) ->
  anchor_candidates (aq_space a) "sobol" ns g false (Some (aq_cm a)) = Some (Ok W) ->
  argsorts (g_argsort g) -> Forall (zippable odm) W ->
  exists V, selects (unknown odm) W V /\ (V = [] -> acq_anchors a ns g odm = Some (Raise FullyExplored)) /\
    forall ms s, V <> [] -> Forall2 (fun v p => predict v = Ok p /\ (0 <= snd p)%Qc) V ms -> length s = length V ->
      (forall k m sd, nth_error ms k = Some (m, sd) -> nth_error s k = Some (m + sd * nrm k)%Qc) ->
      exists A, acq_anchors a ns g odm = Some (Ok A) /\ length A = Nat.min 5 (length V) /\ best_of V s A.
Proof. exact thompson_sample. Qed.
Print Assumptions C23_lowest_sample.

(** The random batch evaluator takes the first new candidates in the order in which they come. *)
Theorem C23_random_in_order : forall a size ns g odm W,
  anchor_candidates (aq_space a) "random" ns g (match odm with Some _ => true | None => false end) (Some (aq_cm a)) = Some (Ok W) ->
  argsorts (g_argsort g) -> Forall (zippable odm) W ->
  exists V, selects (unknown odm) W V /\
    random_anchors a size ns g odm = Some (match V with [] => Raise FullyExplored | _ => Ok (firstn (5 * size) V) end).
Proof. exact random_in_order. Qed.
Print Assumptions C23_random_in_order.

Example C23_nonvacuous_scores :
  let sp := the_space ds1 None in
  let a := acq_of sp None (fun x => Ok (z 0 - qsum x)%Qc) in
  let dm := duplicate_manager sp [[q 1 10]; [q 3 10]] None None in
  aq_logic a = "max_objective" /\
  anchor_candidates sp "random" 7 spread false (Some (aq_cm a)) =
    Some (Ok [[q 1 10]; [q 2 10]; [q 3 10]; [q 4 10]; [q 5 10]; [q 6 10]; [q 7 10]]) /\
  acq_anchors a 7 spread (Some dm) = Some (Ok [[q 7 10]; [q 6 10]; [q 5 10]; [q 4 10]; [q 2 10]]) /\
  random_anchors a 1 9 spread (Some dm) = Some (Ok [[q 2 10]; [q 4 10]; [q 5 10]; [q 6 10]; [q 7 10]]) /\
  thompson_scores (fun x => Ok (qsum x, z 2)) (fun k => if Nat.eqb k 1 then z (-1) else z 1) [[z 3]; [z 4]] = Ok [z 5; z 2].
Proof. cbv zeta. repeat split; vmeq. Qed.

Example C23_nonvacuous :
  let sp := the_space ds1 None in
  let dm := duplicate_manager sp [[q 1 10]; [q 3 10]] None None in
  argsorts (g_argsort spread) /\
  anchor_get sp "random" 5 spread (objective_scores (fun x => Ok (z 0 - qsum x)%Qc)) 2 (Some dm) false None = Some (Ok [[q 5 10]; [q 4 10]]) /\
  anchor_get sp "random" 1 spread (objective_scores (fun x => Ok (qsum x))) 2 (Some dm) false None = Some (Raise FullyExplored).
Proof. cbv zeta. split; [apply isort_ok|]. split; vmeq. Qed.

(** ---------------------------------------------------------------- C24 *)
Theorem C24_single_suggestion_is_new : forall a ns g loc X pending ignored B,
  (forall P, pending = Some P -> has_nonzero P) -> (forall P, ignored = Some P -> has_nonzero P) ->
  sequential_batch a ns g loc (Some (duplicate_manager (aq_space a) X pending ignored)) = Some (Ok B) ->
  exists x t, B = [x] /\ user_form (aq_space a) x t /\ ~ known_to X pending ignored t.
Proof. exact sequential_new. Qed.
Print Assumptions C24_single_suggestion_is_new.

(** The solver insists on the evaluated point 1/2; the anchor is returned instead. *)
Example C24_nonvacuous :
  let sp := the_space ds1 None in
  sequential_batch (acq_of sp None (fun x => Ok (qsum x))) 2 spread (answer [q 1 2]) (Some (duplicate_manager sp [[q 1 2]] None None)) =
    Some (Ok [[q 1 10]]).
Proof. vmeq. Qed.

(** ---------------------------------------------------------------- C25 *)
Theorem C25_best_candidate_is_returned : forall a ns g loc odm x fx,
  acq_optimize a ns g loc odm = Some (Ok (x, fx)) ->
  exists o anchors ys i, choose_optimizer (aq_optimizer a) = Ok o /\ acq_anchors a ns g odm = Some (Ok anchors) /\
    length ys = length anchors /\
    (forall k x0 y, nth_error anchors k = Some x0 -> nth_error ys k = Some y -> candidate a o (loc k) odm x0 y) /\
    nth_error ys i = Some x /\ aq_f a x = Ok fx /\
    (forall j y, nth_error ys j = Some y -> exists fy, aq_f a y = Ok fy /\ (fx <= fy)%Qc /\ (j < i -> (fx < fy)%Qc)).
Proof. exact acq_best. Qed.
Print Assumptions C25_best_candidate_is_returned.

Example C25_nonvacuous :
  let sp := the_space ds1 None in
  acq_optimize (acq_of sp None (fun x => Ok (qsum x))) 3 spread (fun k _ x0 _ _ => Ok (if Nat.eqb k 2 then [q 1 20] else x0)) None =
    Some (Ok ([q 1 20], q 1 20)).
Proof. vmeq. Qed.

(** ---------------------------------------------------------------- C26 *)
Theorem C26_random_batch_distinct_and_new : forall a size ns ns' g g' loc dm B,
  dm_space dm = aq_space a -> random_batch a size ns ns' g g' loc (Some dm) = Some (Ok B) ->
  B <> [] /\ distinct_rows (aq_space a) B /\ Forall (unknown (Some dm)) B /\ (2 <= size -> length B <= size) /\
  (argsorts (g_argsort g') -> length B <= S (5 * size)).
Proof. intros a size ns ns' g g' loc dm B Ed. exact (random_dedup (aq_space a) a size ns ns' g g' loc dm B eq_refl Ed). Qed.
Print Assumptions C26_random_batch_distinct_and_new.

Theorem C26_random_batch_succeeds : forall a size ns ns' g g' loc dm p fp A,
  dm_space dm = aq_space a -> 1 <= size -> argsorts (g_argsort g') ->
  acq_optimize a ns g loc (Some dm) = Some (Ok (p, fp)) -> random_anchors a size ns' g' (Some dm) = Some (Ok A) ->
  exists B, random_batch a size ns ns' g g' loc (Some dm) = Some (Ok B).
Proof. intros a size ns ns' g g' loc dm p fp A Ed. exact (random_dedup_total (aq_space a) a size ns ns' g g' loc dm p fp A eq_refl Ed). Qed.
Print Assumptions C26_random_batch_succeeds.

Theorem C26_thompson_batch_distinct_and_new : forall a ts size ns' g' loc dm ocm B,
  dm_space dm = aq_space a -> thompson_batch a ts size ns' g' loc (Some dm) ocm = Some (Ok B) ->
  B <> [] /\ distinct_rows (aq_space a) B /\ Forall (unknown (Some dm)) B /\ (1 <= size -> length B <= size).
Proof. intros a ts size ns' g' loc dm ocm B Ed. exact (thompson_dedup (aq_space a) a ts size ns' g' loc dm ocm B eq_refl Ed). Qed.
Print Assumptions C26_thompson_batch_distinct_and_new.

(** requested size 1, returned size 6 *)
Theorem C26_size_one_overshoots_refuted :
  let sp := the_space ds1 None in
  random_batch (acq_of sp None (fun x => Ok (qsum x))) 1 1 6 (gen_of (fun _ _ => q 9 10)) spread stay (Some (duplicate_manager sp [[z 1]] None None))
  = Some (Ok [[q 9 10]; [q 1 10]; [q 2 10]; [q 3 10]; [q 4 10]; [q 5 10]]).
Proof. exact overshoot_witness. Qed.
Print Assumptions C26_size_one_overshoots_refuted.

Example C26_nonvacuous :
  let sp := the_space ds1 None in let dm := duplicate_manager sp [[q 1 10]; [q 3 10]] None None in
  random_batch (acq_of sp None (fun x => Ok (qsum x))) 3 1 6 (gen_of (fun _ _ => q 2 10)) spread stay (Some dm) =
    Some (Ok [[q 2 10]; [q 4 10]; [q 5 10]]) /\
  thompson_batch (acq_of sp None (fun x => Ok (qsum x))) (objective_scores (fun x => Ok (qsum x))) 2 6 spread (answer [q 1 2]) (Some dm)
    (Some (the_cm sp None)) = Some (Ok [[q 5 10]; [q 4 10]]).
Proof. cbv zeta. split; vmeq. Qed.

(** ---------------------------------------------------------------- C27 *)
Theorem C27_random_batch_starts_with_optimum : forall a size ns ns' g g' loc odm B,
  random_batch a size ns ns' g g' loc odm = Some (Ok B) ->
  exists p fp, acq_optimize a ns g loc odm = Some (Ok (p, fp)) /\ (odm = None \/ has_nonzero [p] -> hd_error B = Some p).
Proof. exact random_first. Qed.
Print Assumptions C27_random_batch_starts_with_optimum.

Theorem C27_zero_optimum_dropped_refuted :
  let sp := the_space ds1 None in let a := acq_of sp None (fun x => Ok (qsum x)) in
  let dm := duplicate_manager sp [[z 1]] None None in
  acq_optimize a 1 (gen_of (fun _ _ => q 9 10)) (answer [z 0]) (Some dm) = Some (Ok ([z 0], z 0)) /\
  random_batch a 2 1 6 (gen_of (fun _ _ => q 9 10)) spread (answer [z 0]) (Some dm) = Some (Ok [[q 1 10]; [q 2 10]]).
Proof. exact zero_optimum_witness. Qed.
Print Assumptions C27_zero_optimum_dropped_refuted.

Example C27_nonvacuous :
  let sp := the_space ds1 None in let a := acq_of sp None (fun x => Ok (qsum x)) in
  random_batch a 3 1 6 (gen_of (fun _ _ => q 9 10)) spread (answer [z 0]) None = Some (Ok [[z 0]; [q 1 10]; [q 2 10]]).
Proof. vmeq. Qed.

(** ---------------------------------------------------------------- C28 *)
(** [ns'] is the number of design rows drawn for the batch (10000 in the code). *)
Theorem C28_batch_sizes_without_deduplication : forall ds cs sp oc cm a size ns ns' g g' loc ts,
  design_space ds cs = Ok sp -> Forall wf_kind (kinds sp) -> Forall canonical_cats (kinds sp) ->
  good_context sp oc -> context_manager sp oc = Ok cm -> aq_space a = sp -> aq_cm a = cm ->
  good_gen g' -> argsorts (g_argsort g') -> 1 <= size -> size <= ns' ->
  (forall V s, ts V = Ok s -> length s = length V) ->
  (forall B, sequential_batch a ns g loc None = Some (Ok B) -> length B = 1) /\
  (forall B, random_batch a size ns ns' g g' loc None = Some (Ok B) -> length B = size) /\
  (forall B, thompson_batch a ts size ns' g' loc None (Some cm) = Some (Ok B) -> length B = size).
Proof. exact sizes_main. Qed.
Print Assumptions C28_batch_sizes_without_deduplication.

Theorem C28_local_penalization_size : forall size aopt st st' calls B,
  1 <= size -> lp_batch size aopt st = (st', calls, Some (Ok B)) -> length B = size.
Proof. intros size aopt st st' calls B S1 H. apply lp_batch_spec in H as (L & _). lia. Qed.
Print Assumptions C28_local_penalization_size.

Example C28_nonvacuous :
  let sp := the_space ds_ctx None in let oc := Some ctx_test in let a := acq_of sp oc (fun x => Ok (qsum x)) in
  good_context sp oc /\ good_gen (gen_of (fun _ _ => q 1 2)) /\ argsorts (g_argsort (gen_of (fun _ _ => q 1 2))) /\
  (exists B, random_batch a 3 2 4 (gen_of (fun _ _ => q 1 2)) (gen_of (fun _ _ => q 1 2)) stay None = Some (Ok B) /\ length B = 3) /\
  (exists B, thompson_batch a (objective_scores (fun x => Ok (qsum x))) 3 4 (gen_of (fun _ _ => q 1 2)) stay None (Some (the_cm sp oc)) = Some (Ok B) /\ length B = 3).
Proof.
  pose proof ds_ctx_good as (A & B & C & D & E). cbv zeta in *. split; [exact D|]. split; [apply gen_const_good; qcle_dec|].
  split; [apply isort_ok|]. split; eexists; (split; [vm_compute; reflexivity|reflexivity]).
Qed.

(** ---------------------------------------------------------------- C29 *)
(** [aopt k P]: the point the k-th optimization returns when the acquisition penalises the rows [P] (None: nothing).
    The k-th element was found while exactly the k elements before it were penalised, and the final state is
    un-penalised, whatever state [st] an earlier (possibly failed) batch left behind. *)
Theorem C29_local_penalization : forall size aopt st st' calls B,
  lp_batch size aopt st = (st', calls, Some (Ok B)) ->
  length B = Nat.max 1 size /\ st' = None /\
  calls = map (fun j => match j with O => None | _ => Some (firstn j B) end) (seq 0 (length B)) /\
  forall j x, nth_error B j = Some x -> aopt j (match j with O => None | _ => Some (firstn j B) end) = Some (Ok x).
Proof. exact lp_batch_spec. Qed.
Print Assumptions C29_local_penalization.

Theorem C29_suggests_evaluated_point_refuted :
  let sp := the_space ds1 None in let a := acq_of sp None (fun x => Ok (qsum x)) in
  let dm := duplicate_manager sp [[q 1 10]] None None in
  exists st calls, lp_compute_batch 2 (fun _ => a) 1 (fun _ => spread) (fun _ => stay) (Some dm) None None =
    (st, calls, Some (Ok [[q 1 10]; [q 1 10]])) /\ ~ unknown (Some dm) [q 1 10].
Proof. exact lp_duplicate_witness. Qed.
Print Assumptions C29_suggests_evaluated_point_refuted.

Example C29_nonvacuous :
  lp_batch 3 (fun k P => Some (Ok [nat2q (k + match P with Some M => 10 * length M | None => 0 end)])) (Some [[z 5]]) =
    (None, [None; Some [[z 0]]; Some [[z 0]; [z 11]]], Some (Ok [[z 0]; [z 11]; [z 22]])).
Proof. vmeq. Qed.
