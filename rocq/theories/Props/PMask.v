(** C51, C52: constraints in the choice of a suggestion.  Specification: Spec/MaskSpec.v.  Model: Model/Masked.v, Model/Optim.v. *)
From Coq Require Import String List ZArith QArith Qcanon Bool Lia.
From Verif.Model Require Import Py Space Design Optim Masked.
From Verif.Spec Require Import SpaceSpec DesignSpec ContextSpec SuggestSpec MaskSpec Examples.
From Verif.Proof Require Import Num Dec SpaceP RoundP DesignMain SuggestP SuggestMain SuggestEx MaskP.
Import ListNotations.
Local Open Scope nat_scope.
Local Open Scope string_scope.

(** ---------------------------------------------------------------- C51 *)
(** The masked acquisition: minus the cost-weighted acquisition at feasible configurations, 0 at infeasible ones. *)
Theorem C51_masked_value : forall ds cs sp raw cost x t v,
  design_space ds (Some cs) = Ok sp -> Forall wf_kind (kinds sp) -> no_single_category (kinds sp) ->
  length x = model_dimensionality sp -> user_form sp x t -> acquisition_function sp raw cost x = Ok v ->
  (feasible cs t -> exists r c, raw x = Ok r /\ cost x = Ok c /\ v = (- r / c)%Qc) /\
  ((exists c, In c cs /\ violates c t) -> v = 0%Qc).
Proof.
  intros ds cs sp raw cost x t v D W N L U H.
  destruct (masked_value ds cs sp D W N raw cost x v t L U H) as (r & c & R & C & [(F & V)|((k & K1 & K2) & V)]); split; auto.
  - intros _. eauto.
  - intros (k & K1 & K2). exfalso. exact (violates_infeasible cs k t K1 K2 F).
  - intros F. exfalso. exact (violates_infeasible cs k t K1 K2 F).
Qed.
Print Assumptions C51_masked_value.

(** The version with gradients has the same value, and gradient zero at infeasible configurations. *)
Theorem C51_withGradients_agrees : forall ds cs sp raw cost x t v d,
  design_space ds (Some cs) = Ok sp -> Forall wf_kind (kinds sp) -> no_single_category (kinds sp) ->
  length x = model_dimensionality sp -> user_form sp x t -> acquisition_function_withGradients sp raw cost x = Ok (v, d) ->
  acquisition_function sp (fun x => r <- raw x ;; Ok (fst r)) (fun x => c <- cost x ;; Ok (fst c)) x = Ok v /\
  ((exists c, In c cs /\ violates c t) -> Forall (fun e => e = 0%Qc) d).
Proof.
  intros ds cs sp raw cost x t v d D W N L U H. unfold acquisition_function_withGradients in H.
  destruct (raw x) as [r|] eqn:R; [|discriminate]. cbn [bind] in H. destruct (cost x) as [c|] eqn:C; [|discriminate]. cbn [bind] in H.
  destruct (indicator_at sp x) as [i|] eqn:I; [|discriminate]. cbn [bind] in H. injection H as <- <-.
  assert (A : acquisition_function sp (fun x => r <- raw x ;; Ok (fst r)) (fun x => c <- cost x ;; Ok (fst c)) x = Ok (- (fst r / fst c) * i)%Qc).
  { unfold acquisition_function. rewrite R, C. cbn [bind]. rewrite I. cbn [bind]. f_equal. unfold Qcdiv. ring. }
  split; [exact A|]. intros K.
  assert (I0 : i = 0%Qc).
  { set (one := fun _ : vec => Ok 1%Qc). assert (B : acquisition_function sp one one x = Ok (- (1 * i) / 1)%Qc).
    { unfold acquisition_function, one. cbn [bind]. rewrite I. reflexivity. }
    destruct (masked_value ds cs sp D W N one one x _ t L U B) as (r1 & c1 & _ & _ & [(F & _)|(_ & V)]).
    - destruct K as (k & K1 & K2). exfalso. exact (violates_infeasible cs k t K1 K2 F).
    - replace i with (- (- (1 * i) / 1))%Qc by (field; discriminate). rewrite V. ring. }
  subst i. apply Forall_forall. intros e He. apply in_map_iff in He as (p & <- & _). ring.
Qed.
Print Assumptions C51_withGradients_agrees.

(** At feasible configurations its gradient is that of the quotient, by the quotient rule. *)
Theorem C51_quotient_rule : forall ds cs sp raw cost x t v d r dr c dc,
  design_space ds (Some cs) = Ok sp -> Forall wf_kind (kinds sp) -> no_single_category (kinds sp) ->
  length x = model_dimensionality sp -> user_form sp x t -> feasible cs t -> raw x = Ok (r, dr) -> cost x = Ok (c, dc) -> length dr = length dc ->
  c <> 0%Qc -> acquisition_function_withGradients sp raw cost x = Ok (v, d) ->
  v = (- r / c)%Qc /\ List.Forall2 (fun e p => (e * (c * c) = - (fst p * c) + r * snd p)%Qc) d (combine dr dc) /\ length d = length dr.
Proof.
  intros ds cs sp raw cost x t v d r dr c dc D W N L U F R C LD NZ H.
  assert (V : v = (- r / c)%Qc).
  { destruct (C51_withGradients_agrees ds cs sp raw cost x t v d D W N L U H) as [A _].
    destruct (proj1 (C51_masked_value ds cs sp _ _ x t v D W N L U A) F) as (r' & c' & R' & C' & ->). rewrite R in R'. rewrite C in C'. cbn in R', C'. now injection R' as <-; injection C' as <-. }
  split; [exact V|].
  unfold acquisition_function_withGradients in H. rewrite R, C in H. cbn [bind] in H. destruct (indicator_at sp x) as [i|] eqn:I; [|discriminate]. cbn [bind fst snd] in H. injection H as H1 <-.
  assert (I1 : i = 1%Qc).
  { set (one := fun _ : vec => Ok 1%Qc). assert (B : acquisition_function sp one one x = Ok (- (1 * i) / 1)%Qc).
    { unfold acquisition_function, one. cbn [bind]. rewrite I. reflexivity. }
    destruct (proj1 (C51_masked_value ds cs sp one one x t _ D W N L U B) F) as (r1 & c1 & [= <-] & [= <-] & V1).
    replace i with (- (- (1 * i) / 1))%Qc by (field; discriminate). rewrite V1. field. discriminate. }
  subst i. split; [|rewrite map_length, combine_length, LD; apply Nat.min_id].
  induction (combine dr dc) as [|p l IH]; cbn [map]; constructor; [|exact IH]. field. exact NZ.
Qed.
Print Assumptions C51_quotient_rule.

(** Positive acquisitions (EI and MPI are: C46_positive, C48_between_0_and_1): if one of the optimised points is feasible, the suggestion is. *)
Theorem C51_positive_acquisitions : forall ds cs sp oc cm a ns g loc odm raw cost x fx y,
  design_space ds (Some cs) = Ok sp -> Forall wf_kind (kinds sp) -> Forall canonical_cats (kinds sp) -> no_single_category (kinds sp) ->
  good_context sp oc -> context_manager sp oc = Ok cm -> aq_space a = sp -> aq_cm a = cm ->
  aq_f a = acquisition_function sp raw cost -> positive raw -> positive cost -> good_gen g -> 1 <= ns ->
  acq_optimize a ns g loc odm = Some (Ok (x, fx)) ->
  optimised a ns g loc odm y -> row_feasible sp cs y -> row_feasible sp cs x.
Proof. intros. eapply mask_choice; eauto. Qed.
Print Assumptions C51_positive_acquisitions.

(** LCB, where the bound exceeds the confidence interval (mean > weight * deviation) at the feasible optimised points: one infeasible
    optimised point is enough to make the suggestion infeasible, however many feasible ones there are. *)
Theorem C51_LCB_refuted : forall ds cs sp oc cm a ns g loc odm weight predict cost x fx y,
  design_space ds (Some cs) = Ok sp -> Forall wf_kind (kinds sp) -> Forall canonical_cats (kinds sp) -> no_single_category (kinds sp) ->
  good_context sp oc -> context_manager sp oc = Ok cm -> aq_space a = sp -> aq_cm a = cm ->
  aq_f a = acquisition_function sp (lcb_raw weight predict) cost -> positive cost -> good_gen g -> 1 <= ns ->
  (forall z m s, optimised a ns g loc odm z -> row_feasible sp cs z -> predict z = Ok (m, s) -> (weight * s < m)%Qc) ->
  acq_optimize a ns g loc odm = Some (Ok (x, fx)) ->
  optimised a ns g loc odm y -> row_infeasible sp cs y -> row_infeasible sp cs x.
Proof.
  intros ds cs sp oc cm a ns g loc odm weight predict cost x fx y D W CC N G E Es Ec Ef PC GG NS NEG H Hy Iy.
  eapply (negative_choice ds cs sp oc cm D W CC N G E a ns g loc odm (lcb_raw weight predict) cost Es Ec Ef GG NS PC x fx y); eauto.
  intros z v Hz Fz R. unfold lcb_raw in R. destruct (predict z) as [[m s]|] eqn:P; [|discriminate]. cbn [bind fst snd] in R. injection R as <-.
  specialize (NEG z m s Hz Fz P). qclra.
Qed.
Print Assumptions C51_LCB_refuted.

(** Space [0, 1] with the constraint x <= 1/2; draws 1/4 and 1/8; the solver of the second anchor ends at 3/4. *)
Definition below_half : constr := mk_constr None (Some (fun x => Ok (nth 0 x 0 - q 1 2)%Qc)).
Definition draws2 : gen := gen_of (fun _ i => if Nat.eqb i 0 then q 1 4 else q 1 8).
Definition solver2 : nat -> local_opt := fun k _ x0 _ _ => Ok (if Nat.eqb k 1 then [q 3 4] else x0).
Definition unit_cost : acqf := fun _ => Ok q1.
Example C51_nonvacuous :
  let sp := the_space ds1 (Some [below_half]) in
  let raw : acqf := fun x => Ok (q1 + nth 0 x 0 * nth 0 x 0)%Qc in
  let a := acq_of sp None (acquisition_function sp raw unit_cost) in
  design_space ds1 (Some [below_half]) = Ok sp /\ no_single_category (kinds sp) /\ good_context sp None /\
  context_manager sp None = Ok (aq_cm a) /\
  (exists A, acq_anchors a 2 draws2 None = Some (Ok A) /\ length A = 2) /\
  acq_optimize a 2 draws2 solver2 None = Some (Ok ([q 1 4], q (-17) 16)).
Proof.
  cbv zeta. split; [vm_compute; reflexivity|]. split; [repeat constructor|]. split; [split; left; [repeat constructor|split; [repeat constructor|discriminate]]|].
  split; [vm_compute; reflexivity|]. split; [eexists; split; [vm_compute; reflexivity|reflexivity]|vmeq].
Qed.
(** The same with LCB, weight 2, mean 3, deviation 1: the infeasible point 3/4 is suggested although 1/4 or 1/8 was available. *)
Example C51_nonvacuous_LCB :
  let sp := the_space ds1 (Some [below_half]) in
  let a := acq_of sp None (acquisition_function sp (lcb_raw (z 2) (fun _ => Ok (z 3, z 1))) unit_cost) in
  acq_optimize a 2 draws2 solver2 None = Some (Ok ([q 3 4], z 0)).
Proof. vmeq. Qed.

(** With a categorical variable of a single category the constraints see the one-hot code 1 instead of the category 0: a feasible
    configuration is masked. *)
Theorem C51_one_category_refuted :
  let ds := [d_cont "a" (z 0) (z 1); d_cat "c" [z 7]] in
  let c := mk_constr None (Some (fun x => Ok (nth 1 x 0 - q 1 2)%Qc)) in
  exists sp, design_space ds (Some [c]) = Ok sp /\ Forall wf_kind (kinds sp) /\
    forall u, (0 <= u)%Qc -> (u <= 1)%Qc -> row_feasible sp [c] [u; q1] /\
      forall r k, acquisition_function sp (fun _ => Ok r) (fun _ => Ok k) [u; q1] = Ok 0%Qc.
Proof.
  intros ds c. exists (the_space ds (Some [c])). split; [vm_compute; reflexivity|]. split.
  { apply Forall_cons; [|apply Forall_cons; [|constructor]]; vm_compute; discriminate. }
  intros u H0 H1. split.
  - eexists. split; [vm_compute; reflexivity|].
    intros k [<-|[]]. eexists. split; [eexists; split; reflexivity|]. vm_compute. discriminate.
  - intros r k. unfold acquisition_function. cbn [bind].
    assert (I : indicator_at (the_space ds (Some [c])) [u; q1] = Ok q0) by (vm_compute; reflexivity).
    rewrite I. cbn [bind]. f_equal. unfold Qcdiv, q0. ring.
Qed.
Print Assumptions C51_one_category_refuted.

(** ---------------------------------------------------------------- C52 *)
(** On a continuous space without context, with a positive acquisition and a local optimizer that does not end at a worse point than it
    started from, every suggestion is feasible. *)
Theorem C52_continuous_spaces : forall ds cs sp cm a ns g loc odm raw cost x fx,
  design_space ds (Some cs) = Ok sp -> Forall wf_kind (kinds sp) -> all_continuous (kinds sp) ->
  context_manager sp None = Ok cm -> aq_space a = sp -> aq_cm a = cm -> aq_logic a = "max_objective" ->
  aq_f a = acquisition_function sp raw cost -> positive raw -> positive cost -> good_gen g -> 1 <= ns ->
  (forall k, descends (loc k)) ->
  acq_optimize a ns g loc odm = Some (Ok (x, fx)) -> row_feasible sp cs x.
Proof. intros. eapply continuous_suggestion; eauto. Qed.
Print Assumptions C52_continuous_spaces.
Example C52_nonvacuous :
  let sp := the_space ds1 (Some [below_half]) in
  let raw : acqf := fun x => Ok (q1 + nth 0 x 0 * nth 0 x 0)%Qc in
  let a := acq_of sp None (acquisition_function sp raw unit_cost) in
  all_continuous (kinds sp) /\ (forall k, descends (stay k)) /\
  acq_optimize a 2 draws2 stay None = Some (Ok ([q 1 4], q (-17) 16)).
Proof.
  cbv zeta. split; [split; [discriminate|repeat constructor]|]. split; [|vmeq].
  intros k bs x0 f h v IN [= <-]. split; auto. intros b Hb. exists b. split; auto. apply Qcle_refl.
Qed.

(** On discrete spaces false: variable with the values 0 and 10, constraint x <= 6, acquisition 1 + x.  The optimizer improves from the
    feasible anchor 0 to 11/2, which satisfies the constraint; rounding gives 10, which does not; the anchor is not used instead. *)
Theorem C52_rounding_refuted :
  let ds := [d_disc "n" [z 0; z 10]] in
  let c := mk_constr None (Some (fun x => Ok (nth 0 x 0 - z 6)%Qc)) in
  let sp := the_space ds (Some [c]) in
  let raw : acqf := fun x => Ok (q1 + nth 0 x 0)%Qc in
  let f := acquisition_function sp raw unit_cost in
  let a := acq_of sp None f in
  let better : nat -> local_opt := fun _ _ x0 h _ =>
    match h x0, h [q 11 2] with Ok u, Ok w => Ok (if qclt w u then [q 11 2] else x0) | _, _ => Ok x0 end in
  design_space ds (Some [c]) = Ok sp /\
  acq_anchors a 3 (gen_of (fun _ _ => q0)) None = Some (Ok [[z 0]; [z 0]; [z 0]]) /\
  f [z 0] = Ok (z (-1)) /\ f [q 11 2] = Ok (q (-13) 2) /\
  acq_optimize a 3 (gen_of (fun _ _ => q0)) better None = Some (Ok ([z 10], z 0)) /\
  row_infeasible sp [c] [z 10].
Proof.
  cbv zeta. split; [vm_compute; reflexivity|]. split; [vmeq|]. split; [vmeq|]. split; [vmeq|]. split; [vmeq|].
  eexists. eexists. split; [vm_compute; reflexivity|]. split; [left; reflexivity|].
  exists (z 10 - z 6)%Qc. split; [eexists; split; reflexivity|]. reflexivity.
Qed.
Print Assumptions C52_rounding_refuted.
