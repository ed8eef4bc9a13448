(** C128: with de-duplication on, the batches of the sampling evaluators are as full as what was drawn allows.
    Specification: Spec/SuggestSpec.v ([unknown], [distinct_rows]).  Model: Model/Optim.v. *)
From Coq Require Import String List ZArith QArith Qcanon Bool Lia Permutation.
From Verif.Model Require Import Py Space Design Optim.
From Verif.Spec Require Import SpaceSpec DesignSpec ContextSpec SuggestSpec Examples.
From Verif.Proof Require Import Num Dec SpaceP AnchorP SuggestP SuggestMain ScoreP SuggestEx FullBatchP.
Import ListNotations.
Local Open Scope nat_scope.
Local Open Scope string_scope.

(** [X]: every row that was drawn, repeats included.  [N]: any collection of different new configurations among them. *)
Theorem C128_random : forall ds cs sp oc cm a size ns ns' g g' loc dm B X N,
  design_space ds cs = Ok sp -> Forall wf_kind (kinds sp) -> Forall canonical_cats (kinds sp) ->
  good_context sp oc -> context_manager sp oc = Ok cm -> aq_space a = sp -> aq_cm a = cm -> dm_space dm = sp ->
  good_gen g' -> argsorts (g_argsort g') -> 1 <= ns' ->
  random_batch a size ns ns' g g' loc (Some dm) = Some (Ok B) ->
  anchor_candidates sp "random" ns' g' false (Some cm) = Some (Ok X) ->
  (forall x, In x N -> In x X /\ unknown (Some dm) x) -> distinct_rows sp N ->
  (length B < size -> length N <= length B) /\ (2 <= size -> size <= length N -> length B = size).
Proof.
  intros ds cs sp oc cm a size ns ns' g g' loc dm B X N D W CC G E Es Ec Ed GG SA NS H HX HN DN.
  assert (F : length B < size -> length N <= length B) by (intro L; eapply (random_full ds cs sp oc cm); eauto).
  split; [exact F|]. intros S2 SN. destruct (random_dedup sp a size ns ns' g g' loc dm B Es Ed H) as (_ & _ & _ & U & _). specialize (U S2). lia.
Qed.
Print Assumptions C128_random.

(** Thompson sampling first improves each anchor; two of them may end at the same place, so half is what is certain. *)
Theorem C128_thompson : forall ds cs sp oc cm a ts size ns' g' loc dm B X N,
  design_space ds cs = Ok sp -> Forall wf_kind (kinds sp) -> Forall canonical_cats (kinds sp) ->
  good_context sp oc -> context_manager sp oc = Ok cm -> aq_space a = sp -> dm_space dm = sp ->
  good_gen g' -> argsorts (g_argsort g') -> 1 <= ns' -> (forall V s, ts V = Ok s -> length s = length V) ->
  thompson_batch a ts size ns' g' loc (Some dm) (Some cm) = Some (Ok B) ->
  anchor_candidates sp "random" ns' g' false (Some cm) = Some (Ok X) ->
  (forall x, In x N -> In x X /\ unknown (Some dm) x) -> distinct_rows sp N ->
  (length B < size -> length N <= 2 * length B) /\ (1 <= size -> 2 * size <= length N -> length B = size).
Proof.
  intros ds cs sp oc cm a ts size ns' g' loc dm B X N D W CC G E Es Ed GG SA NS LT H HX HN DN.
  assert (F : length B < size -> length N <= 2 * length B) by (intro L; eapply (thompson_full ds cs sp oc cm); eauto).
  split; [exact F|]. intros S1 SN. destruct (thompson_dedup sp a ts size ns' g' loc dm (Some cm) B Es Ed H) as (_ & _ & _ & U). specialize (U S1). lia.
Qed.
Print Assumptions C128_thompson.

(** Two new configurations drawn, two asked for, one returned. *)
Theorem C128_thompson_refuted :
  let sp := the_space ds1 None in let a := acq_of sp None (fun x => Ok (qsum x)) in
  let dm := duplicate_manager sp [[q 1 10]; [q 2 10]; [q 3 10]; [q 6 10]] None None in
  exists X, anchor_candidates sp "random" 6 spread false (Some (the_cm sp None)) = Some (Ok X) /\
    (forall x, In x [[q 4 10]; [q 5 10]] -> In x X /\ unknown (Some dm) x) /\ distinct_rows sp [[q 4 10]; [q 5 10]] /\
    thompson_batch a (objective_scores (fun x => Ok (qsum x))) 2 6 spread (answer [q 5 10]) (Some dm) (Some (the_cm sp None)) = Some (Ok [[q 5 10]]).
Proof.
  cbv zeta. exists [[q 1 10]; [q 2 10]; [q 3 10]; [q 4 10]; [q 5 10]; [q 6 10]]. split; [vmeq|]. split; [|split; [|vmeq]].
  - intros x [<-|[<-|[]]]; (split; [simpl; tauto|]).
    + exists [q 4 10]. split; [vmeq|]. intro H. apply vmem_spec in H. vm_compute in H. discriminate.
    + exists [q 5 10]. split; [vmeq|]. intro H. apply vmem_spec in H. vm_compute in H. discriminate.
  - exists [[q 4 10]; [q 5 10]]. split; [repeat constructor; vmeq|].
    constructor; [intro H; apply vmem_spec in H; vm_compute in H; discriminate|constructor; [intros []|constructor]].
Qed.
Print Assumptions C128_thompson_refuted.

(** eleven draws of one configuration and one of another: both are in the batch *)
Example C128_nonvacuous :
  let sp := the_space ds1 None in let a := acq_of sp None (fun x => Ok (qsum x)) in
  let g := gen_of (fun _ i => if Nat.ltb i 11 then q 1 10 else q 2 10) in
  let dm := duplicate_manager sp [[z 1]] None None in
  design_space ds1 None = Ok sp /\ good_context sp None /\ context_manager sp None = Ok (the_cm sp None) /\ good_gen g /\ argsorts (g_argsort g) /\
  random_batch a 2 1 12 (gen_of (fun _ _ => q 1 10)) g stay (Some dm) = Some (Ok [[q 1 10]; [q 2 10]]) /\
  anchor_candidates sp "random" 12 g false (Some (the_cm sp None)) = Some (Ok (repeat [q 1 10] 11 ++ [[q 2 10]])%list).
Proof.
  cbv zeta. split; [vm_compute; reflexivity|]. split; [split; left; [|split; [|vm_compute; discriminate]]; vm_compute; repeat constructor|]. split; [vm_compute; reflexivity|]. split; [split; [|constructor]|].
  - intros k j i. cbn. destruct (Nat.leb i 10); split; qcle_dec.
  - split; [apply isort_ok|]. split; vmeq.
Qed.
