(** C133: maximize=True and observations supplied by the user.  Specification: Spec/BOSpec.v, Spec/MaximizeSpec.v.  Model: Model/BO.v. *)
From Coq Require Import String List ZArith QArith Qcanon Bool Lia.
From Verif.Model Require Import Py Space Design Optim Objective BO.
From Verif.Spec Require Import Examples BOSpec BOExamples MaximizeSpec.
From Verif.Proof Require Import Num BOP BOLoop BOMain BOExtra.
From Verif.Props Require Import PLoop.
Import ListNotations.
Local Open Scope nat_scope.

Lemma supplied_data M (E : env M) a f fork fuel dr U (m : M) s inner ops s1 fl mi mt eps ctx s' X0 Y0 :
  a_f a = Some f -> a_maximize a = true -> stateless f -> 1 <= a_batch_size a -> a_X a = Some X0 -> a_Y a = Some Y0 -> aligned X0 Y0 ->
  bayesian_optimization a fork (e_clock E) fuel dr U m = Some (Ok (s, inner)) -> e_obj E = the_objective a fork ->
  history E s ops s1 -> run_optimization fl E s1 mi mt eps ctx = (s', Some (Ok tt)) ->
  exists new fs, s_X s' = X0 ++ new /\ values_at f new fs /\ s_Y s' = Some (Y0 ++ map Qcopp fs).
Proof.
  intros AF MX ST BS AX AY AL B EO H R.
  assert (H2 : history E s (ops ++ [ORun fl mi mt eps ctx]) s').
  { clear -H R. revert s H. induction ops as [|op ops IH]; intros s H; cbn in *; [subst; exists s'; auto|]. destruct H as (s2 & S & H). exists s2. split; [exact S|now apply IH]. }
  assert (O : e_obj E = Some (mk_obj (sign true f) (a_batch_size a) fork)) by (rewrite EO; unfold the_objective; now rewrite AF, MX).
  unfold bayesian_optimization, init_design_chooser, the_objective in B. rewrite AF, AX, AY in B. cbn [rbind fst snd] in B. injection B as ES _.
  assert (SX : s_X s = X0) by (rewrite <- ES; reflexivity). assert (SYs : s_Y s = Some Y0) by (rewrite <- ES; reflexivity). clear ES.
  destruct (C30_aligned_and_append_only M E _ (ops ++ [ORun fl mi mt eps ctx]) s s' O) as (new & ys & Y' & X' & SY & EY & _ & V); [exact BS|exact H2|clear; destruct ops; discriminate|rewrite SYs, SX; intros Y [= <-]; exact AL|].
  unfold values_so_far, pending_rows in *. rewrite SYs in *. rewrite SX in X'. cbn [o_fun app] in *. subst Y'.
  assert (V' : values_at (sign true f) new ys). { apply V. intros h h' x. unfold sign. now rewrite (ST h h' x). }
  assert (W : exists fs, values_at f new fs /\ ys = map Qcopp fs).
  { clear -V'. induction V' as [|x y new ys H V' (fs & F & ->)]; [exists []; split; [constructor|reflexivity]|]. exists ((- y)%Qc :: fs). split.
    - constructor; [|exact F]. intros h. specialize (H h). unfold sign in H. destruct (f h x) as [v|e]; cbn [bind] in H; [|discriminate]. injection H as <-. now rewrite Qcopp_involutive.
    - cbn. now rewrite Qcopp_involutive. }
  destruct W as (fs & F & ->). exists new, fs. auto.
Qed.
Lemma values_in f X fs i x : values_at f X fs -> nth_error X i = Some x -> exists v, nth_error fs i = Some v /\ forall h, f h x = Ok v.
Proof. intros V. revert i. induction V as [|a b X fs H V IH]; intros [|i] E; cbn in *; try discriminate; [injection E as <-; eauto|auto]. Qed.

(** If the observations supplied are minus the values of f, the largest value of f over all rows, supplied or not, is reported. *)
Theorem C133_negated : forall M (E : env M) a f fork fuel dr U (m : M) s inner ops s1 fl mi mt eps ctx s' X0 gs,
  a_f a = Some f -> a_maximize a = true -> stateless f -> 1 <= a_batch_size a -> a_X a = Some X0 -> a_Y a = Some (map Qcopp gs) -> values_at f X0 gs ->
  bayesian_optimization a fork (e_clock E) fuel dr U m = Some (Ok (s, inner)) -> e_obj E = the_objective a fork ->
  history E s ops s1 -> run_optimization fl E s1 mi mt eps ctx = (s', Some (Ok tt)) ->
  exists fs y_best x_opt fx_opt, values_at f (s_X s') fs /\ s_Y s' = Some (map Qcopp fs) /\
    s_report s' = Some (y_best, x_opt, fx_opt) /\ is_max (- fx_opt) fs /\ In x_opt (s_X s') /\ (forall h, f h x_opt = Ok (- fx_opt)%Qc).
Proof.
  intros M E a f fork fuel dr U m s inner ops s1 fl mi mt eps ctx s' X0 gs AF MX ST BS AX AY VG B EO H R.
  assert (AL : aligned X0 (map Qcopp gs)) by (unfold aligned; rewrite map_length; exact (Forall2_len _ _ _ VG)).
  destruct (supplied_data M E a f fork fuel dr U m s inner ops s1 fl mi mt eps ctx s' X0 _ AF MX ST BS AX AY AL B EO H R) as (new & fs & EX & V & SY).
  assert (O : e_obj E = Some (mk_obj (sign true f) (a_batch_size a) fork)) by (rewrite EO; unfold the_objective; now rewrite AF, MX).
  destruct (C33_reported_optimum M fl E s1 mi mt eps ctx s' _ O R) as (Y & yb & x & mm & i & SY' & RP & [I1 I2] & _ & NY & NX & _).
  rewrite SY in SY'. injection SY' as <-. rewrite <- map_app in *. assert (VA : values_at f (s_X s') (gs ++ fs)) by (rewrite EX; apply Forall2_app; assumption).
  exists (gs ++ fs), yb, x, mm. split; [exact VA|]. split; [exact SY|]. split; [exact RP|].
  destruct (values_in f _ _ i x VA NX) as (v & NV & FV). rewrite nth_error_map, NV in NY. injection NY as <-. rewrite Qcopp_involutive. split; [|split; [eapply nth_error_In; eauto|exact FV]].
  split; [eapply nth_error_In; eauto|]. intros y Iy. assert (L : (- v <= - y)%Qc) by (apply I2, in_map_iff; eauto). apply Qcopp_le_compat in L. now rewrite !Qcopp_involutive in L.
Qed.
Print Assumptions C133_negated.
(** If they are the values of f, as the name Y suggests, the row reported is the best of the new rows or the worst of the supplied ones. *)
Theorem C133_as_they_are : forall M (E : env M) a f fork fuel dr U (m : M) s inner ops s1 fl mi mt eps ctx s' X0 gs,
  a_f a = Some f -> a_maximize a = true -> stateless f -> 1 <= a_batch_size a -> a_X a = Some X0 -> a_Y a = Some gs -> values_at f X0 gs ->
  bayesian_optimization a fork (e_clock E) fuel dr U m = Some (Ok (s, inner)) -> e_obj E = the_objective a fork ->
  history E s ops s1 -> run_optimization fl E s1 mi mt eps ctx = (s', Some (Ok tt)) ->
  exists new fs y_best x_opt fx_opt, s_X s' = X0 ++ new /\ values_at f new fs /\ s_Y s' = Some (gs ++ map Qcopp fs) /\ s_report s' = Some (y_best, x_opt, fx_opt) /\
    ((In x_opt X0 /\ is_min fx_opt gs /\ forall h, f h x_opt = Ok fx_opt) \/
     (In x_opt new /\ is_max (- fx_opt) fs /\ forall h, f h x_opt = Ok (- fx_opt)%Qc)).
Proof.
  intros M E a f fork fuel dr U m s inner ops s1 fl mi mt eps ctx s' X0 gs AF MX ST BS AX AY VG B EO H R.
  assert (AL : aligned X0 gs) by exact (Forall2_len _ _ _ VG).
  destruct (supplied_data M E a f fork fuel dr U m s inner ops s1 fl mi mt eps ctx s' X0 _ AF MX ST BS AX AY AL B EO H R) as (new & fs & EX & V & SY).
  assert (O : e_obj E = Some (mk_obj (sign true f) (a_batch_size a) fork)) by (rewrite EO; unfold the_objective; now rewrite AF, MX).
  destruct (C33_reported_optimum M fl E s1 mi mt eps ctx s' _ O R) as (Y & yb & x & mm & i & SY' & RP & [I1 I2] & _ & NY & NX & _).
  rewrite SY in SY'. injection SY' as <-. exists new, fs, yb, x, mm. split; [exact EX|]. split; [exact V|]. split; [exact SY|]. split; [exact RP|].
  rewrite EX in NX. unfold aligned in AL. destruct (Nat.lt_ge_cases i (length X0)) as [L|L].
  - left. rewrite nth_error_app1 in NX by exact L. rewrite nth_error_app1 in NY by lia. split; [eapply nth_error_In; eauto|].
    destruct (values_in f _ _ i x VG NX) as (v & NV & FV). rewrite NY in NV. injection NV as <-. split; [|exact FV]. split; [eapply nth_error_In; eauto|]. intros y Iy. apply I2, in_or_app. now left.
  - right. rewrite nth_error_app2 in NX by exact L. rewrite nth_error_app2 in NY by lia. rewrite <- AL in NY. split; [eapply nth_error_In; eauto|].
    destruct (values_in f _ _ _ x V NX) as (v & NV & FV). rewrite nth_error_map, NV in NY. injection NY as <-. rewrite Qcopp_involutive. split; [|exact FV].
    split; [eapply nth_error_In; eauto|]. intros y Iy. assert (K : (- v <= - y)%Qc) by (apply I2, in_or_app; right; apply in_map_iff; eauto). apply Qcopp_le_compat in K. now rewrite !Qcopp_involutive in K.
Qed.
Print Assumptions C133_as_they_are.
(** So the largest known value may be missed: f is 16 and 9 at the rows supplied, and a row where f is 4 is reported. *)
Definition args_supplied : bo_args := mk_args (Some square3) line (Some [[z (-1)]; [z 0]]) (Some [z 16; z 9]) "random" 5 true 1 1 ArgNone.
Theorem C133_largest_refuted : exists (E : env nat) a f s inner s' y_best x_opt fx_opt, a_f a = Some f /\ a_maximize a = true /\ stateless f /\
  (exists X0 gs, a_X a = Some X0 /\ a_Y a = Some gs /\ values_at f X0 gs /\ In (z 16) gs) /\ e_obj E = the_objective a true /\
  bayesian_optimization a true (e_clock E) 5 (fun _ => mk_draws (fun _ _ => 0) (fun _ _ => q0) (fun _ _ => q0)) [] 0 = Some (Ok (s, inner)) /\
  run_optimization 10 E s (LFin (z 2)) LNone q0 None = (s', Some (Ok tt)) /\ s_report s' = Some (y_best, x_opt, fx_opt) /\ forall h, f h x_opt = Ok (z 4).
Proof.
  exists (toy 1 (the_objective args_supplied true)), args_supplied, square3. do 6 eexists. split; [reflexivity|]. split; [reflexivity|]. split; [intros h h' x; reflexivity|].
  split. { exists [[z (-1)]; [z 0]], [z 16; z 9]. split; [reflexivity|]. split; [reflexivity|]. split; [|now left]. repeat constructor; intros h; vm_compute; reflexivity. }
  split; [reflexivity|]. split; [vm_compute; reflexivity|]. split; [vm_compute; reflexivity|]. split; [vm_compute; reflexivity|]. intros h. vm_compute. reflexivity.
Qed.
Print Assumptions C133_largest_refuted.
(** Without an objective maximize changes nothing: the data supplied are minimised. *)
Theorem C133_without_objective : forall M a fork clock fuel dr U (m : M) b, a_f a = None ->
  bayesian_optimization (with_maximize a b) fork clock fuel dr U m = bayesian_optimization a fork clock fuel dr U m /\
  the_objective (with_maximize a b) fork = the_objective a fork.
Proof. intros M a fork clock fuel dr U m b AF. unfold bayesian_optimization, init_design_chooser, the_objective, with_maximize. cbn [a_f a_X a_Y a_cost]. rewrite AF. split; reflexivity. Qed.
Print Assumptions C133_without_objective.

(** The same rows with the negated values: the row -1 with f = 16 is reported. *)
Definition args_negated : bo_args := mk_args (Some square3) line (Some [[z (-1)]; [z 0]]) (Some [z (-16); z (-9)]) "random" 5 true 1 1 ArgNone.
Example C133_nonvacuous : let E := toy 1 (the_objective args_negated true) in exists s inner s' y_best,
  a_Y args_negated = Some (map Qcopp [z 16; z 9]) /\ values_at square3 [[z (-1)]; [z 0]] [z 16; z 9] /\
  bayesian_optimization args_negated true (e_clock E) 5 (fun _ => mk_draws (fun _ _ => 0) (fun _ _ => q0) (fun _ _ => q0)) [] 0 = Some (Ok (s, inner)) /\
  run_optimization 10 E s (LFin (z 2)) LNone q0 None = (s', Some (Ok tt)) /\ s_report s' = Some (y_best, [z (-1)], z (-16)).
Proof.
  cbv zeta. do 4 eexists. split; [vm_compute; reflexivity|]. split; [repeat constructor; intros h; vm_compute; reflexivity|]. split; [vm_compute; reflexivity|]. split; [vm_compute; reflexivity|]. vm_compute. reflexivity.
Qed.
