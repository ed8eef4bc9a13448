(** C137: optimizers that were given the same surrogate.  Specification: Spec/SharedSpec.v.  Model: Model/Shared.v. *)
From Coq Require Import String List ZArith QArith Qcanon Bool Lia.
From Verif.Model Require Models Surrogates.
From Verif.Model Require Import Py Space Design Optim Objective BO Shared.
From Verif.Spec Require Import BOSpec SharedSpec Examples BOExamples.
From Verif.Proof Require Import Num Dec SharedP.
Import ListNotations.
Local Open Scope nat_scope.
Local Open Scope list_scope.

(** Any number of optimizers share one surrogate, and the user calls run_optimization and suggest_next_locations on them in any order.  If the surrogate,
    when it is fitted, forgets what it was fitted to before, then each optimizer returns, raises, evaluates, records and reports exactly what it would if it
    had the surrogate for itself: for every model_update_interval, also when calls of the others fail, and whatever the surrogate was at first. *)
Theorem C137_alone : forall S G (Es : nat -> env (S * G)) i c ss calls, forgets (Es i) ->
  of i (fst (together Es c ss calls)) = fst (by_itself (Es i) (ss i) (of i calls)) /\
  same_optimizer (snd (by_itself (Es i) (ss i) (of i calls))) (snd (together Es c ss calls) i).
Proof. intros S G Es i c ss calls F. apply (together_alone Es i F calls c ss (ss i)), same_refl. Qed.
Print Assumptions C137_alone.

(** In particular the order in which calls on different optimizers are interleaved makes no difference. *)
Theorem C137_order : forall S G (Es : nat -> env (S * G)) i c c' ss calls calls', forgets (Es i) -> of i calls = of i calls' ->
  of i (fst (together Es c ss calls)) = of i (fst (together Es c' ss calls')) /\
  same_optimizer (snd (together Es c ss calls) i) (snd (together Es c' ss calls') i).
Proof.
  intros S G Es i c c' ss calls calls' F H. destruct (C137_alone S G Es i c ss calls F) as [A1 A2]. destruct (C137_alone S G Es i c' ss calls' F) as [B1 B2]. rewrite A1, B1, H in *.
  split; [reflexivity|]. eapply same_trans; [apply same_sym; exact A2 | exact B2].
Qed.
Print Assumptions C137_order.

(** Random forests without warm_start forget: whatever they were fitted to before, an update leaves the same forest. *)
Theorem C137_forest : forall fit refit g g' d, Surrogates.rf_warm g = false -> Surrogates.rf_warm g' = false ->
  Surrogates.rf_update fit refit g d = Surrogates.rf_update fit refit g' d.
Proof. intros fit refit g g' [X Y] H H'. unfold Surrogates.rf_update. rewrite H, H'. destruct (Surrogates.rf_forest g), (Surrogates.rf_forest g'); reflexivity. Qed.
Print Assumptions C137_forest.
(** GPs whose parameters are optimised do not: a fit in between is one more optimisation from where the last one ended. *)
Theorem C137_gp : forall K N F D (g : Models.gpmodel K N F D) d d', 0 < Models.gp_iters g -> Models.updateModel (Models.updateModel g d') d <> Models.updateModel g d.
Proof.
  intros K N F D g d d' H. enough (Q : forall g : Models.gpmodel K N F D, 0 < Models.gp_iters g -> Models.gp_iters (Models.updateModel g d') = Models.gp_iters g /\
    match Models.gp_model (Models.updateModel g d) with Some m => length (Models.b_opts m) | None => 0 end = S (match Models.gp_model g with Some m => length (Models.b_opts m) | None => 0 end) /\
    match Models.gp_model (Models.updateModel g d') with Some m => length (Models.b_opts m) | None => 0 end = S (match Models.gp_model g with Some m => length (Models.b_opts m) | None => 0 end)).
  { intros E. destruct (Q g H) as (Q1 & Q2 & Q3). rewrite <- Q1 in H. destruct (Q _ H) as (_ & Q4 & _). rewrite E, Q3 in Q4. rewrite Q2 in Q4. lia. }
  clear g H. intros g H. apply Nat.ltb_lt in H. unfold Models.updateModel, Models.create_model, Models.with_gpy. destruct (Models.gp_model g) as [m|] eqn:M; cbn [Models.gp_model Models.gp_iters Models.gp_restarts Models.gp_optimizer Models.b_opts]; rewrite H;
    cbn [Models.gp_model Models.gp_iters Models.b_opts]; [|destruct (Models.gp_sparse g)]; cbn [Models.b_opts]; rewrite ?app_length; cbn; repeat split; lia.
Qed.
Print Assumptions C137_gp.

(** A surrogate that counts how often it was fitted ([warm]: the parameters of the last fit are where the next one starts) or only knows how many rows it has. *)
Definition counter (warm : bool) (interval : Z) : env (nat * unit) :=
  mk_env (nat * unit) line false interval None (Some obj1) (fun m _ _ => (m, Some (Ok [[nat2q (S (fst m))]])))
    (fun m X Y => ((if warm then S (fst m) else length X, tt), None)) (fun m => Some [nat2q (fst m)]) nat2q (fun x => x) (fun _ _ => None).
Definition first_state : st (nat * unit) := bo_init [[z 3]; [z 4]] (Some [z 9; z 16]) ArgNone (0, tt).
Definition ask_once : op := OSuggest None None None.
Definition run_two : op := ORun 20 (LFin (nat2q 2)) LInf (z (-1)) None.

(** Without forgetting, which is how a GP is refitted (it starts from its present parameters), the claim is false: after a call on the second optimizer the
    first one suggests another point than it would alone. *)
Theorem C137_warm_refuted :
  of 0 (fst (together (fun _ => counter true 1) 0 (fun _ => first_state) [(1, ask_once); (0, ask_once)])) = [Some (Ok (Some [[z 3]]))] /\
  fst (by_itself (counter true 1) first_state (of 0 [(1, ask_once); (0, ask_once)])) = [Some (Ok (Some [[z 2]]))].
Proof. split; vm_compute; repeat (f_equal; try (apply Qc_is_canon; reflexivity)). Qed.
Print Assumptions C137_warm_refuted.

Example C137_nonvacuous : forgets (counter false 2) /\
  let r := together (fun _ => counter false 2) 7 (fun _ => first_state) [(0, run_two); (1, ask_once); (0, ask_once); (1, run_two); (0, run_two)] in
  of 1 (fst r) = [Some (Ok (Some [[z 3]])); Some (Ok None)] /\ length (of 0 (fst r)) = 3 /\ length (s_X (snd r 0)) = 6 /\ length (s_X (snd r 1)) = 4.
Proof.
  split; [intros c c' g X Y; reflexivity|]. cbv zeta. split; [|split; [|split]]; vm_compute; repeat (f_equal; try (apply Qc_is_canon; reflexivity)).
Qed.
