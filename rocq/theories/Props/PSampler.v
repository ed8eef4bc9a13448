(** C71, C107: the representer points of entropy search.  Specification: Spec/SamplerSpec.v, Spec/DesignSpec.v, Spec/SpaceSpec.v.  Model:
    Model/Sampler.v.  [ens] is the external ensemble sampler and [ord] the order in which a set of positions is gone through. *)
From Coq Require Import String List Reals Lra QArith Qcanon Bool Arith Permutation.
From Coquelicot Require Import Rbar.
From Verif.Model Require Import Py Space Design Optim ES Sampler.
From Verif.Spec Require Import SpaceSpec DesignSpec SamplerSpec Examples.
From Verif.Proof Require Import Num Dec SpaceP RoundP SpaceMain DesignMain AnchorP ESP2 SuggestP ESearchP SamplerP.
Import ListNotations.
Local Open Scope nat_scope.

(** ---------------------------------------------------------------- C71 *)
(** Exactly the points of positive density are kept, each as often as it was sampled, in an unspecified order. *)
Theorem C71_kept_points : forall (A : Type) ord n (pts : list (A * Rbar)), (forall l, Permutation (ord l) l) -> length pts = n ->
  exists sel kept, keep_points ord n pts = Ok kept /\ selects (fun p => snd p <> m_infty) pts sel /\ Permutation kept sel.
Proof. exact @kept_points. Qed.
Print Assumptions C71_kept_points.
Theorem C71_infinite : forall ens ord fuel sp dr U n b ei bs pts p, get_bounds sp = Ok bs ->
  get_samples ens fuel sp dr U n (fun x => prop_func (box_of bs) (ei x) x) b = Some (Ok pts) -> In p pts -> snd p = p_infty ->
  representer_points ens ord fuel sp dr U n b ei = Some (Raise RuntimeError).
Proof. exact infinite_density. Qed.
Print Assumptions C71_infinite.
Example C71_nonvacuous_kept : let pts := [(1%nat, Finite 3%R); (2%nat, m_infty); (3%nat, Finite 4%R)] in
  keep_points (@rev nat) 3 pts = Ok [(3%nat, Finite 4%R); (1%nat, Finite 3%R)] /\ (forall l : list nat, Permutation (rev l) l).
Proof. split; [reflexivity|]. intro l. apply Permutation_sym, Permutation_rev. Qed.

(** ---------------------------------------------------------------- C107 *)
(** Every representer point lies in the box of the variables and has positive density, and comes with the log of that density. *)
Theorem C107_inside : forall ds cs sp ens ord fuel dr U n burn_in ei kept, design_space ds cs = Ok sp -> Forall wf_kind (kinds sp) ->
  Forall numeric (kinds sp) -> (forall k, unit_draws (dr_unif (dr k))) -> accept_reject ens -> (forall l, Permutation (ord l) l) ->
  representer_points ens ord fuel sp dr U n burn_in ei = Some (Ok kept) ->
  exists bs, get_bounds sp = Ok bs /\ length kept <= n /\
    forall x l, In (x, l) kept -> in_box_R (box_of bs) x /\ (0 < ei x)%R /\ l = Finite (ln (ei x)).
Proof. intros. eapply representers_inside; eauto. Qed.
Print Assumptions C107_inside.
(** As many as asked for, unless the density vanishes somewhere in the box. *)
Theorem C107_none_lost : forall ds cs sp ens ord fuel dr U n burn_in ei kept, design_space ds cs = Ok sp -> Forall wf_kind (kinds sp) ->
  Forall numeric (kinds sp) -> (forall k, unit_draws (dr_unif (dr k))) -> accept_reject ens -> (forall l, Permutation (ord l) l) ->
  representer_points ens ord fuel sp dr U n burn_in ei = Some (Ok kept) ->
  (forall bs x, get_bounds sp = Ok bs -> in_box_R (box_of bs) x -> (0 < ei x)%R) -> length kept = n.
Proof. intros. eapply representers_all; eauto. Qed.
Print Assumptions C107_none_lost.
(** The sampler is asked for as many walkers as points are wanted, in the dimension of the model, and starts from that many rows of that
    length: two samplers that agree on such calls give the same points. *)
Theorem C107_walkers : forall ds cs sp ens ens' ord fuel dr U n burn_in ei, design_space ds cs = Ok sp -> Forall wf_kind (kinds sp) ->
  Forall numeric (kinds sp) -> (forall k, unit_draws (dr_unif (dr k))) ->
  (forall logp start, length start = n -> Forall (fun x => length x = model_dimensionality sp) start ->
     ens n (model_dimensionality sp) logp start burn_in = ens' n (model_dimensionality sp) logp start burn_in) ->
  representer_points ens ord fuel sp dr U n burn_in ei = representer_points ens' ord fuel sp dr U n burn_in ei.
Proof. exact same_calls. Qed.
Print Assumptions C107_walkers.
(** Every Metropolis sampler is a sampler of the kind assumed. *)
Theorem C107_metropolis : forall prop accept, (forall x k i, length (prop x k i) = length x) -> accept_reject (metropolis prop accept).
Proof. exact metropolis_accept_reject. Qed.
Print Assumptions C107_metropolis.

(** "A representer point is a configuration that could be evaluated" is false: constraints are not consulted, ... *)
Theorem C107_constraints_refuted : exists ds c sp prop accept dr n burn_in ei x l, design_space ds (Some [c]) = Ok sp /\ Forall wf_kind (kinds sp) /\
  Forall numeric (kinds sp) /\ (forall k, unit_draws (dr_unif (dr k))) /\ (forall x k i, length (prop x k i) = length x) /\
  (forall y, (0 < ei y)%R) /\
  representer_points (metropolis prop accept) (fun l => l) 9 sp dr [] n burn_in ei = Some (Ok [(map q2r x, l)]) /\ ~ satisfies c x.
Proof. exact constraint_ignored. Qed.
Print Assumptions C107_constraints_refuted.
(** ... and a discrete variable takes values outside its domain. *)
Theorem C107_domain_refuted : exists ds sp prop accept dr n burn_in ei x l, design_space ds None = Ok sp /\ Forall wf_kind (kinds sp) /\
  Forall numeric (kinds sp) /\ (forall k, unit_draws (dr_unif (dr k))) /\ (forall x k i, length (prop x k i) = length x) /\
  (forall y, (0 < ei y)%R) /\
  representer_points (metropolis prop accept) (fun l => l) 9 sp dr [] n burn_in ei = Some (Ok [(map q2r x, l)]) /\ ~ design_point (kinds sp) x.
Proof. exact grid_ignored. Qed.
Print Assumptions C107_domain_refuted.
Example C107_nonvacuous : let ds := [d_cont "x" (z 0) (z 4)] in let sp := the_space ds None in let ei x := (1 + nth 0 x 0 * nth 0 x 0)%R in
  let ens := metropolis (toward [q2r (z 3)]) (fun _ _ => true) in
  design_space ds None = Ok sp /\ Forall wf_kind (kinds sp) /\ Forall numeric (kinds sp) /\ (forall k, unit_draws (dr_unif (half_dr k))) /\
  accept_reject ens /\ (forall y, (0 < ei y)%R) /\
  representer_points ens (@rev nat) 9 sp half_dr [] 2 5 ei =
    Some (Ok [([q2r (z 3)], Finite (ln (1 + q2r (z 3) * q2r (z 3)))); ([q2r (z 3)], Finite (ln (1 + q2r (z 3) * q2r (z 3))))]).
Proof.
  cbv zeta. split; [vm_compute; reflexivity|]. split; [repeat constructor; qcle_dec|]. split; [repeat constructor|]. split; [exact half_unit|].
  split; [apply metropolis_accept_reject, toward_length|]. split; [intro; nra|]. exact two_points.
Qed.
