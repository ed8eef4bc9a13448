(** C131: what the distance test (eps) does over the life of an object.  Specification: Spec/BOSpec.v, Spec/EpsSpec.v.  Model: Model/BO.v. *)
From Coq Require Import String List ZArith QArith Qcanon Bool Lia.
From Verif.Model Require Import Py Space Design Optim Objective BO.
From Verif.Spec Require Import Examples BOSpec BOExamples EpsSpec.
From Verif.Proof Require Import Num BOP BOLoop BOMain BOMain2 EpsP.
Import ListNotations.
Local Open Scope nat_scope.

(** Once the last two evaluated points are within eps, no run with this or a larger eps evaluates anything, whatever its limits and its context, and
    whatever is suggested or raises an exception in between. *)
Theorem C131_stuck : forall M (E : env M) o eps ops s s', e_obj E = Some o -> together eps (s_X s) -> s_Y s <> None ->
  (forall fuel mi mt eps' ctx, In (ORun fuel mi mt eps' ctx) ops -> (eps <= eps')%Qc) -> history_caught E s ops s' ->
  s_X s' = s_X s /\ s_Y s' = s_Y s /\ s_hist s' = s_hist s.
Proof. intros M E o eps ops s s' O H Y HE HH. destruct (ops_close E o eps O ops s s' H Y HE HH) as (A & B & C & _). auto. Qed.
Print Assumptions C131_stuck.
(** So a run that returns before its iteration limit, without a time limit and without a linear-algebra failure, is the last one that evaluates anything. *)
Theorem C131_early_is_final : forall M (E : env M) o fuel s mi mt eps ctx s1 q ops s2, e_obj E = Some o ->
  (forall m X Y, snd (e_update E m X Y) <> Some LinAlgError) -> (forall t, mt <> LFin t) -> iteration_limit mi mt q ->
  run_optimization fuel E s mi mt eps ctx = (s1, Some (Ok tt)) -> (nat2q (s_num s1) < q)%Qc ->
  (forall fuel mi mt eps' ctx, In (ORun fuel mi mt eps' ctx) ops -> (eps <= eps')%Qc) -> history_caught E s1 ops s2 ->
  s_X s2 = s_X s1 /\ s_Y s2 = s_Y s1 /\ s_hist s2 = s_hist s1.
Proof.
  intros M E o fuel s mi mt eps ctx s1 q ops s2 O NL NT LI R LT HE HH. apply (C131_stuck M E o eps ops s1 s2 O); [|destruct (step_data E s (ORun fuel mi mt eps ctx) s1 o O R) as (? & ? & _ & -> & _); discriminate|exact HE|exact HH].
  destruct (run_stops fuel E s mi mt eps ctx s1 o O R) as (_ & [(q' & LI' & Q)|[(t & T & _)|[H|(m & Xm & Ym & U & _ & H)]]] & _).
  - exfalso. assert (q' = q) as -> by (destruct LI as [->|(-> & -> & ->)], LI' as [L|(L1 & L2 & L3)]; congruence). apply Qcle_not_lt in Q. contradiction.
  - exfalso. apply (NT t). exact T.
  - exact H.
  - exfalso. exact (NL _ _ _ H).
Qed.
Print Assumptions C131_early_is_final.
(** If the last two points of the initial design are within eps, a run evaluates the initial design and nothing else. *)
Theorem C131_initial : forall M (E : env M) o fuel s mi mt eps ctx s', e_obj E = Some o -> together eps (s_X s) -> s_Y s = None ->
  run_optimization fuel E s mi mt eps ctx = (s', Some (Ok tt)) -> s_X s' = s_X s /\ s_num s' = 0 /\ (o_procs o = 1 -> s_hist s' = s_hist s ++ s_X s).
Proof.
  intros M E o fuel s mi mt eps ctx s' O H NY R.
  assert (K : s_X s' = s_X s /\ s_num s' = 0).
  { apply (run_cases _ _ _ _ _ _ _ _ _ _ O) in R. destruct R as (s0 & r0 & I & [(N & _ & <-)|(-> & n & s1 & s2 & r1 & ST & IT & [(N & _ & <-)|(-> & q & CR & [= <-])])]); try now contradiction N.
    destruct (initial_ok _ _ _ _ I) as (Y0 & _ & EX & _). sproj in *.
    assert (C : together eps (s_X (started E s0))) by (unfold started; sproj; now rewrite EX).
    destruct (iter_close E o (fst (stop_conditions mi mt)) (snd (stop_conditions mi mt)) eps (e_clock E (s_tick s0)) (started E s0) C) as (s3 & r3 & I3 & A & _ & _ & _ & F).
    inversion ST as [s4 E1 E2 E3|n' s4 s5 s6 I4 ST' E1 E2 E3]; subst; [|congruence]. destruct IT as [(_ & IT)|(_ & _ & ?)]; [|discriminate]. assert (s2 = s3) as -> by congruence.
    apply compute_results_spec in CR. destruct CR as [CR _]. rewrite CR. sproj. rewrite A, F. unfold started. sproj. split; [exact EX|reflexivity]. }
  destruct K as [K1 K2]. split; [exact K1|]. split; [exact K2|]. intros P. destruct (step_data E s (ORun fuel mi mt eps ctx) s' o O R) as (new & ys & A & _ & _ & B & _).
  rewrite K1 in A. assert (new = []) as -> by (apply app_inv_head with (l := s_X s); now rewrite app_nil_r). destruct (B P) as [-> _]. unfold pending_rows. now rewrite NY, app_nil_r.
Qed.
Print Assumptions C131_initial.
(** With batches of two or more the test looks at the last batch alone: if the last two points of every batch are more than eps apart, a run that evaluated
    a batch does not end because of eps, however often it returns to the same points. *)
Theorem C131_batches : forall M (E : env M) o fuel s mi mt eps ctx s', e_obj E = Some o ->
  (forall m odm cm m' b B, e_batch E m odm cm = (m', Some (Ok b)) -> zip_inputs (e_space E) b = Ok B -> exists pre x y, B = pre ++ [y; x] /\ ~ within_eps eps x y) ->
  run_optimization fuel E s mi mt eps ctx = (s', Some (Ok tt)) -> s_num s' <> 0 ->
  (exists q, iteration_limit mi mt q /\ (q <= nat2q (s_num s'))%Qc) \/ (exists t, time_limit mt t /\ (t <= s_cum s')%Qc) \/
  (exists m Xm Ym U, s_updates s' = U ++ [(s_num s', Xm, Ym)] /\ snd (e_update E m Xm Ym) = Some LinAlgError).
Proof.
  intros M E o fuel s mi mt eps ctx s' O HB R NZ. destruct (run_stops fuel E s mi mt eps ctx s' o O R) as (_ & [H|[H|[H|H]]] & _); auto. exfalso.
  apply (run_cases _ _ _ _ _ _ _ _ _ _ O) in R. destruct R as (s0 & r0 & I & [(N & _ & <-)|(-> & n & s1 & s2 & r1 & ST & IT & [(N & _ & <-)|(-> & q & CR & [= <-])])]); try now contradiction N.
  destruct IT as [(_ & IT)|(_ & _ & ?)]; [|discriminate]. apply compute_results_spec in CR. destruct CR as [CR _]. rewrite CR in H, NZ. sproj in *.
  pose proof (iter_stop_ok _ _ _ _ _ _ _ _ IT) as (EX & _ & _ & EN & _). rewrite EX in H. rewrite EN in NZ. revert H. apply (steps_apart E o _ _ eps _ HB n _ _ ST).
  intros ->. inversion ST; subst. apply NZ. reflexivity.
Qed.
Print Assumptions C131_batches.
(** That a run ends when it only repeats itself: a batch of the same two points, three times. *)
Theorem C131_repeating_refuted : exists (E : env nat) o s', e_obj E = Some o /\ (forall m odm cm, snd (e_batch E m odm cm) = Some (Ok [[z 1]; [z 2]])) /\
  run_optimization 10 E (fresh None) (LFin (z 3)) LNone q0 None = (s', Some (Ok tt)) /\ s_X s' = s_X (fresh None) ++ [[z 1]; [z 2]; [z 1]; [z 2]; [z 1]; [z 2]] /\ s_num s' = 3.
Proof.
  exists (mk_env nat line false 1%Z None (Some obj1) (fun m _ _ => (m, Some (Ok [[z 1]; [z 2]]))) (fun m _ _ => (m, None)) (fun m => Some [nat2q m]) nat2q (fun x => x) (fun _ _ => None)).
  exists obj1. eexists. split; [reflexivity|]. split; [reflexivity|]. split; [vm_compute; reflexivity|]. split; vm_compute; reflexivity.
Qed.
Print Assumptions C131_repeating_refuted.

(** The initial points 0 and -1 are within 1: a run with eps = 1 makes no acquisition, and neither does a second one; with eps = 0 the same object goes on. *)
Example C131_nonvacuous : let E := toy 1 (Some obj1) in exists s1 s2 s3,
  together (z 1) (s_X (fresh None)) /\ run_optimization 10 E (fresh None) (LFin (z 5)) LNone (z 1) None = (s1, Some (Ok tt)) /\ s_num s1 = 0 /\ (nat2q (s_num s1) < z 5)%Qc /\ s_Y s1 <> None /\
  history_caught E s1 [ORun 10 (LFin (z 5)) LNone (z 1) None; OSuggest None None None; ORun 10 (LFin (z 2)) LNone (z 2) None] s2 /\ s_X s2 = s_X (fresh None) /\
  run_optimization 10 E s2 (LFin (z 2)) LNone q0 None = (s3, Some (Ok tt)) /\ length (s_X s3) = 4.
Proof.
  cbv zeta. do 3 eexists. split.
  { exists [], [z (-1)], [z 0]. split; [reflexivity|]. split; vm_compute; discriminate. }
  split; [vm_compute; reflexivity|]. split; [reflexivity|]. split; [vm_compute; reflexivity|]. split; [discriminate|].
  split; [cbn [history_caught]; do 2 eexists; split; [vm_compute; reflexivity|]; do 2 eexists; split; [vm_compute; reflexivity|]; do 2 eexists; split; [vm_compute; reflexivity|reflexivity]|].
  split; [reflexivity|]. split; [vm_compute; reflexivity|]. reflexivity.
Qed.
