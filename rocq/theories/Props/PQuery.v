(** C98 and the second part of C05: what a design space answers about itself.
    Specification: Spec/SpaceSpec.v, Spec/QuerySpec.v.  Model: Model/Space.v. *)
From Coq Require Import String List ZArith QArith Qcanon Bool Lia.
From Verif.Model Require Import Py Space.
From Verif.Spec Require Import SpaceSpec QuerySpec Examples.
From Verif.Proof Require Import Num Dec SpaceP QueryP.
Import ListNotations.
Local Open Scope nat_scope.
Local Open Scope string_scope.
Local Open Scope list_scope.

(** ---------------------------------------------------------------- C05, continued *)
(** The bounds are the smallest box around the encoded points: every bound is the coordinate of some point. *)
Theorem C05_bounds_exact : forall ds cs sp, design_space ds cs = Ok sp -> Forall wf_kind (kinds sp) ->
  exists bs, get_bounds sp = Ok bs /\ length bs = model_dimensionality sp /\
    (forall z, design_point (kinds sp) z -> Forall2 (fun x b => (fst b <= x)%Qc /\ (x <= snd b)%Qc) z bs) /\
    (forall j lo hi, nth_error bs j = Some (lo, hi) ->
      (exists z, design_point (kinds sp) z /\ nth_error z j = Some hi) /\
      (Forall (fun k => ~ one_category k) (kinds sp) -> exists z, design_point (kinds sp) z /\ nth_error z j = Some lo)).
Proof. exact bounds_exact. Qed.
Print Assumptions C05_bounds_exact.
Example C05_bounds_nonvacuous : exists sp, design_space ds_bandit None = Ok sp /\ Forall wf_kind (kinds sp) /\
  Forall (fun k => ~ one_category k) (kinds sp) /\ get_bounds sp = Ok [(z (-2), z 1); (z 0, z 5)].
Proof.
  exists (the_space ds_bandit None). split; [vm_compute; reflexivity|]. split; [|split; [|vmeq]].
  - repeat constructor; try discriminate. simpl. intros a b [<-|[<-|[<-|[]]]] [<-|[<-|[<-|[]]]]; reflexivity.
  - repeat constructor. intros (c & H). discriminate.
Qed.

(** ---------------------------------------------------------------- C98 *)
Theorem C98_dimensions : forall ds cs sp, design_space ds cs = Ok sp -> bandit_free (kinds sp) ->
  exists c d, get_continuous_dims sp = Ok c /\ positions_of continuous_kind (kinds sp) c /\
    get_discrete_dims sp = Ok d /\ positions_of discrete_kind (kinds sp) d /\ input_dim sp = Ok (length c + length d).
Proof. exact dims_exact. Qed.
Print Assumptions C98_dimensions.
(** For a bandit with arms of two coordinates the same questions raise. *)
Theorem C98_dimensions_of_bandits_refuted : exists ds sp, design_space ds None = Ok sp /\ Forall wf_kind (kinds sp) /\
  get_continuous_dims sp = Raise IndexError /\ get_discrete_dims sp = Raise IndexError /\ input_dim sp = Raise IndexError.
Proof.
  exists ds_bandit, (the_space ds_bandit None). split; [vm_compute; reflexivity|]. split; [|repeat split].
  repeat constructor; try discriminate. simpl. intros a b [<-|[<-|[<-|[]]]] [<-|[<-|[<-|[]]]]; reflexivity.
Qed.
Print Assumptions C98_dimensions_of_bandits_refuted.

Theorem C98_discrete_grid : forall ds cs sp, design_space ds cs = Ok sp ->
  (forall r, In r (get_discrete_grid sp) <-> Forall2 (fun x vals => In x vals) r (discrete_domains (kinds sp))) /\
  length (get_discrete_grid sp) = fold_right Nat.mul 1 (map (@length Qc) (discrete_domains (kinds sp))) /\
  (Forall (@NoDup Qc) (discrete_domains (kinds sp)) -> NoDup (get_discrete_grid sp)).
Proof. exact discrete_grid. Qed.
Print Assumptions C98_discrete_grid.

Theorem C98_bandit_arms : forall ds cs sp, design_space ds cs = Ok sp -> get_bandit sp = bandit_arms (kinds sp).
Proof. exact bandit_query. Qed.
Print Assumptions C98_bandit_arms.

(** The subspace of some model columns: the variables whose first column is among them, in order. *)
Theorem C98_subspace : forall ds cs sp dims, design_space ds cs = Ok sp -> Forall wf_kind (kinds sp) -> bandit_free (kinds sp) ->
  kept_from (get_subspace sp dims) (sp_xvars sp) /\
  forall v, In v (get_subspace sp dims) <-> In v (sp_xvars sp) /\ exists j, hd_error (x_idx_mod v) = Some j /\ In j dims.
Proof. exact subspace_query. Qed.
Print Assumptions C98_subspace.

(** A list of bounds in the style of old versions becomes a space of continuous variables var_1, var_2, .. with these bounds. *)
Theorem C98_old_bounds : forall bs, exists sp, design_space (bounds_to_space bs) None = Ok sp /\ get_bounds sp = Ok bs /\
  kinds sp = map (fun b => KCont (fst b) (snd b)) bs /\ map x_name (sp_xvars sp) = map (fun k => ("var_" ++ str_nat (S k))%string) (seq 0 (length bs)) /\
  map x_idx_mod (sp_xvars sp) = map (fun i => [i]) (seq 0 (length bs)) /\ has_constraints sp = false.
Proof. exact bounds_space. Qed.
Print Assumptions C98_old_bounds.

Definition ds_query : list descr := [ d_disc "a" [z 1; z 2]; d_cat "b" [z 0; z 1]; with_dim (d_disc "c" [z 3; z 4; z 5]) 2; d_cont "d" (z 0) (z 1) ].
Example C98_nonvacuous : exists sp, design_space ds_query None = Ok sp /\ bandit_free (kinds sp) /\ Forall wf_kind (kinds sp) /\
  get_continuous_dims sp = Ok [4] /\ get_discrete_dims sp = Ok [0; 2; 3] /\ input_dim sp = Ok 4 /\
  length (get_discrete_grid sp) = 18 /\ Forall (@NoDup Qc) (discrete_domains (kinds sp)) /\
  map x_name (get_subspace sp [1; 3; 2]) = ["b"; "c_1"] /\
  get_bandit (the_space ds_two_bandits None) = [[z 1; z 2]; [z 3; z 4]; [z 5; z 6]; [z 7; z 8]].
Proof.
  exists (the_space ds_query None). split; [vm_compute; reflexivity|]. split; [repeat constructor|]. split; [repeat constructor; simpl; try discriminate; qcle_dec|].
  split; [vmeq|]. split; [vmeq|]. split; [vmeq|]. split; [vm_compute; reflexivity|]. split; [|split; [vm_compute; reflexivity|vmeq]].
  repeat constructor; simpl; intuition (try (match goal with H : _ = _ |- _ => revert H; qcne_dec end)).
Qed.
