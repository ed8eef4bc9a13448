(** C96-C97: objectives that modify their argument, and users who modify arrays.
    Specification: Spec/AliasSpec.v, Spec/BOSpec.v.  Model: Model/Alias.v. *)
From Coq Require Import String List ZArith QArith Qcanon Bool Lia.
From Verif.Model Require Import Py Space Design Optim Objective BO Alias.
From Verif.Spec Require Import BOSpec AliasSpec Examples BOExamples.
From Verif.Proof Require Import Num Dec BOP AliasP.
Import ListNotations.
Local Open Scope nat_scope.
Local Open Scope string_scope.
Local Open Scope list_scope.

(** x -= 3; return x ** 2: the values of [square3], with the argument changed in place *)
Definition shift3 : mutfun := fun h x => (map (fun a => (a - z 3)%Qc) x, square3 h x).
Definition in_place : objective_m := mk_objm shift3 1 true.
(** An object with the user's array [X] and given values. *)
Definition holding (X : mat) (Y : vec) (cost : costarg) : hst nat := mk_hst nat [X] 0 0 None (bo_init [] (Some Y) cost 0).

(** ---------------------------------------------------------------- C96 *)
(** A run of an object that has values for its rows does not notice that the objective modifies its argument: it returns the
    same result and leaves the same evaluations, values, report and surrogate as with an objective that has the same values
    and modifies nothing, and no array that existed before the run is changed.  The cost must not be the measured time. *)
Theorem C96_run : forall M (E : env M) (o : objective_m) (s s' : hst M) fuel mi mt eps ctx r,
  sound s -> s_Y (hs_st s) <> None -> is_time_cost (s_cost (hs_st s)) = false ->
  run_optimization_m fuel E o s mi mt eps ctx = (s', r) ->
  exists t', run_optimization fuel (with_objective E (mk_obj (fun h x => snd (om_fun o h x)) (om_procs o) (om_fork o))) (view s) mi mt eps ctx = (t', r) /\
    same_data (view s') t' /\ forall a, a < length (hs_heap s) -> rd (hs_heap s') a = rd (hs_heap s) a.
Proof.
  intros M E o s s' fuel mi mt eps ctx r SN NY CT R. destruct (run_sim E o s fuel mi mt eps ctx s' r SN NY CT R) as (t' & RT & SD & FR & _ & _).
  exists t'. split; [exact RT|]. split; [exact SD|]. apply FR.
Qed.
Print Assumptions C96_run.

(** The initial rows are evaluated in place: with one process the user's own array, which is also the object's, then holds
    what the objective left there, while the values are those at the original rows. *)
Theorem C96_initial : forall M (o : objective_m) clock H a cost (m : M) H' s,
  a < length H -> om_procs o = 1 -> construct_m o clock H a cost m = (H', Some (Ok s)) ->
  rd H' a = left_by (om_fun o) [] (rd H a) /\ s_X (view s) = rd H' a /\
  (forall b, b <> a -> rd H' b = rd H b) /\
  exists Y, s_Y (view s) = Some Y /\ answers (value_of (om_fun o)) [] (rd H a) Y.
Proof.
  intros M o clock H a cost m H' s LA P C. unfold construct_m in C. destruct (evaluate_m o clock H [] 0 a) as [H1 [[h t] r]] eqn:EV.
  apply evaluate_m_spec in EV as (EQ & L & O & _ & SEQ & _); [|exact LA]. destruct r as [[[ys cs]|e]|]; [|discriminate|discriminate].
  cbn in C. injection C as <- <-. split; [exact (SEQ P _ _ _ eq_refl)|]. split; [reflexivity|]. split; [exact O|]. exists ys. split; [reflexivity|].
  symmetry in EQ. apply evaluate_seq_ok in EQ; [|exact P]. exact (proj2 EQ).
Qed.
Print Assumptions C96_initial.

(** Nothing is changed if the objective modifies nothing, or if it is evaluated in forked processes. *)
Theorem C96_initial_kept : forall M (o : objective_m) clock H a cost (m : M) H' s,
  a < length H -> (om_procs o = 1 /\ keeps (om_fun o)) \/ (om_procs o <> 1 /\ om_fork o = true) ->
  construct_m o clock H a cost m = (H', Some (Ok s)) -> s_X (view s) = rd H a /\ forall b, rd H' b = rd H b.
Proof.
  intros M o clock H a cost m H' s LA [(P & K)|(P & F)] C.
  - destruct (C96_initial M o clock H a cost m H' s LA P C) as (A & B & D & _).
    assert (I : forall rows h, left_by (om_fun o) h rows = rows) by (induction rows as [|x rows IH]; intros h; cbn; [auto|rewrite K, IH; reflexivity]).
    rewrite I in A. split; [congruence|]. intros b. destruct (Nat.eq_dec b a) as [->|N]; auto.
  - unfold construct_m in C. destruct (evaluate_m o clock H [] 0 a) as [H1 [[h t] r]] eqn:EV. apply evaluate_m_spec in EV as (_ & _ & _ & _ & _ & S); [|exact LA].
    rewrite (S P F) in *. destruct r as [[[ys cs]|e]|]; [|discriminate|discriminate]. cbn in C. injection C as <- <-. split; reflexivity.
Qed.
Print Assumptions C96_initial_kept.

(** So the report can be wrong: the objective is evaluated at 5 (value 4), the report says 4 at 2, where the value is 1, and the
    user's array [[5]] has become [[2]]. *)
Theorem C96_initial_refuted :
  exists H' s s', construct_m in_place nat2q [[[z 5]]] 0 ArgNone 0 = (H', Some (Ok s)) /\ rd H' 0 = [[z 2]] /\
    run_optimization_m 5 (toy 1 None) in_place s (LFin (z 0)) LInf (z 0) None = (s', Some (Ok tt)) /\
    s_report (view s') = Some ([z 4], [z 2], z 4) /\ snd (shift3 [] [z 2]) = Ok (z 1).
Proof. do 3 eexists. split; [vm_compute; reflexivity|]. split; [vmeq|]. split; [vm_compute; reflexivity|]. split; vmeq. Qed.
Print Assumptions C96_initial_refuted.

(** A surrogate of the measured time is trained on what the objective left (-2), not on the evaluated point (1). *)
Theorem C96_cost_refuted :
  exists s' C, run_optimization_m 5 (toy 1 None) in_place (holding [[z 0]] [z 9] ArgTime) (LFin (z 1)) LInf (z 0) None = (s', Some (Ok tt)) /\
    s_X (view s') = [[z 0]; [z 1]] /\ s_cost (view s') = CostTime 1 (Some ([[z (-2)]], C)).
Proof.
  do 2 eexists. split; [vm_compute; reflexivity|]. split; [vmeq|].
  match goal with |- ?l = _ => let v := eval vm_compute in l in change l with v end.
  apply (f_equal (CostTime 1)). apply (f_equal Some). apply (f_equal2 pair); [vmeq|reflexivity].
Qed.
Print Assumptions C96_cost_refuted.

Example C96_nonvacuous :
  let s := holding [[z 0]; [z (-1)]] [z 9; z 16] ArgNone in
  sound s /\ s_Y (hs_st s) <> None /\ is_time_cost (s_cost (hs_st s)) = false /\ ~ keeps shift3 /\
  exists s', run_optimization_m 5 (toy 1 None) in_place s (LFin (z 2)) LInf (z 0) None = (s', Some (Ok tt)) /\
    s_X (view s') = [[z 0]; [z (-1)]; [z 1]; [z 2]] /\ s_Y (view s') = Some [z 9; z 16; z 4; z 1] /\ rd (hs_heap s') (hs_sugg s') = [[z (-1)]] /\
    rd (hs_heap s') 0 = [[z 0]; [z (-1)]] /\ s_report (view s') = Some ([z 9; z 9; z 4; z 1], [z 2], z 1).
Proof.
  cbv zeta. split; [split; vm_compute; lia|]. split; [discriminate|]. split; [reflexivity|].
  split; [intros K; specialize (K [] [z 5]); apply (f_equal (fun l => nth 0 l q0)) in K; revert K; qcne_dec|].
  eexists. split; [vm_compute; reflexivity|]. repeat split; vmeq.
Qed.
Example C96_nonvacuous_parallel :
  exists H' s, construct_m (mk_objm shift3 2 true) nat2q [[[z 5]; [z 1]; [z 0]]] 0 ArgNone 0 = (H', Some (Ok s)) /\
    H' = [[[z 5]; [z 1]; [z 0]]] /\ s_Y (view s) = Some [z 4; z 4; z 9].
Proof. do 2 eexists. split; [vm_compute; reflexivity|]. split; vmeq. Qed.

(** ---------------------------------------------------------------- C97 *)
(** The arrays returned by suggest_next_locations and get_evaluations belong to the user: whatever is written to them, and
    whenever, all later results are those of the same calls without the writes, and the object ends in the same state. *)
Theorem C97_returned_arrays : forall M (E : env M) (o : objective_m) (s s' : hst M) us got l,
  sound s -> urun E o s [] us = Some (s', got, l) ->
  exists s2, urun E o s [] (without_writes us) = Some (s2, got, l) /\ view s2 = view s'.
Proof. intros M E o s s' us got l SN U. apply (writes_unseen E o s [] us s' got l SN); [intros a []|exact U]. Qed.
Print Assumptions C97_returned_arrays.

(** After a run with at least one iteration the same holds for every array that existed before the run, such as the initial
    X the object was built with. *)
Theorem C97_own_array : forall M (E : env M) (o : objective_m) (s s1 s' : hst M) fuel mi mt eps ctx r mine us got l,
  sound s -> s_Y (hs_st s) <> None -> is_time_cost (s_cost (hs_st s)) = false ->
  run_optimization_m fuel E o s mi mt eps ctx = (s1, r) -> 0 < s_num (hs_st s1) ->
  (forall a, In a mine -> a < length (hs_heap s)) ->
  urun E o s1 mine us = Some (s', got, l) ->
  exists s2, urun E o s1 mine (without_writes us) = Some (s2, got, l) /\ view s2 = view s'.
Proof.
  intros M E o s s1 s' fuel mi mt eps ctx r mine us got l SN NY CT R N OW U.
  destruct (run_sim E o s fuel mi mt eps ctx s1 r SN NY CT R) as (t' & _ & _ & (FL & _) & SN1 & NEW). destruct (NEW N) as (NX & NS).
  apply (writes_unseen E o s1 mine us s' got l SN1); [|exact U]. intros a I. apply OW in I. lia.
Qed.
Print Assumptions C97_own_array.

(** Before its first iteration the object still uses the user's array: writing to it changes the evaluations (the value 9
    belongs to 0). *)
Theorem C97_own_array_refuted :
  let s := holding [[z 0]] [z 9] ArgNone in
  sound s /\ exists s' got l, urun (toy 1 None) in_place s [0] [UWrite 0 [[z 7]]; UGet] = Some (s', got, [SawEvaluations [[z 7]] l]) /\ l = [z 9] /\
  exists s2 got2, urun (toy 1 None) in_place s [0] [UGet] = Some (s2, got2, [SawEvaluations [[z 0]] l]).
Proof.
  cbv zeta. split; [split; vm_compute; lia|]. exists (with_heap (holding [[z 0]] [z 9] ArgNone) [[[z 7]]; [[z 7]]]), [0; 1], [z 9].
  split; [reflexivity|]. split; [reflexivity|]. do 2 eexists. reflexivity.
Qed.
Print Assumptions C97_own_array_refuted.

(** The reported x_opt is a view of the evaluations: writing to it changes them. *)
Theorem C97_x_opt_refuted :
  let s := holding [[z 0]; [z (-1)]] [z 9; z 16] ArgNone in
  exists s', run_optimization_m 5 (toy 1 None) in_place s (LFin (z 1)) LInf (z 0) None = (s', Some (Ok tt)) /\
    s_X (view s') = [[z 0]; [z (-1)]; [z 1]] /\ s_X (view (write_opt s' [z 100])) = [[z 0]; [z (-1)]; [z 100]].
Proof. cbv zeta. eexists. split; [vm_compute; reflexivity|]. split; vmeq. Qed.
Print Assumptions C97_x_opt_refuted.

Example C97_nonvacuous :
  let s := holding [[z 0]; [z (-1)]] [z 9; z 16] ArgNone in
  let us := [UGet; UWrite 0 [[z 50]; [z 50]]; URun 5 (LFin (z 1)) LInf (z 0) None; USuggest None None None; UWrite 1 [[z 8]]; UGet] in
  sound s /\ exists s' got l, urun (toy 1 None) in_place s [] us = Some (s', got, l) /\ got = [1; 4; 5] /\ rd (hs_heap s') 1 = [[z 50]; [z 50]] /\
    rd (hs_heap s') 4 = [[z 8]] /\ s_X (view s') = [[z 0]; [z (-1)]; [z 1]] /\ length l = 4 /\ without_writes us <> us.
Proof.
  cbv zeta. split; [split; vm_compute; lia|]. do 3 eexists. split; [vm_compute; reflexivity|]. split; [reflexivity|]. split; [vmeq|]. split; [vmeq|]. split; [vmeq|].
  split; [reflexivity|discriminate].
Qed.
