(** C09-C16: initial designs.  Specification: Spec/SpaceSpec.v, Spec/DesignSpec.v.  Model: Model/Design.v. *)
From Coq Require Import String List ZArith QArith Qcanon Bool Lia.
From Verif.Model Require Import Py Space Design.
From Verif.Spec Require Import SpaceSpec DesignSpec Examples.
From Verif.Proof Require Import Num Dec SpaceP RoundP ConstructP SpaceMain IrootP DesignP DesignMain.
Import ListNotations.
Local Open Scope nat_scope.
Local Open Scope string_scope.

(** ---------------------------------------------------------------- C09 *)
(** With one bandit variable (whose dimensionality attribute is its number of columns) random designs consist of
    arms and rounding returns one arm. *)
Theorem C09_single_bandit : forall ds cs sp isarr arms dr n x,
  design_space ds cs = Ok sp -> kinds sp = [KBandit isarr arms] -> wf_kind (KBandit isarr arms) ->
  sp_dim sp = total_width (kinds sp) -> unit_draws (dr_unif dr) -> length x = model_dimensionality sp ->
  (exists M, get_samples_without_constraints sp dr n = Ok M /\ length M = n /\ Forall (fun r => In r arms) M) /\
  (exists a, round_optimum sp [x] = Ok [a] /\ In a arms).
Proof. exact single_bandit_main. Qed.
Print Assumptions C09_single_bandit.

(** With two bandit variables of width two the last column is left as np.empty found it, the row is not a
    concatenation of arms, and rounding returns two rows whatever the argument. *)
Theorem C09_two_bandits_refuted :
  exists sp, design_space ds_two_bandits None = Ok sp /\ Forall wf_kind (kinds sp) /\
    (forall junk, exists dr row, unit_draws (dr_unif dr) /\ get_samples_without_constraints sp dr 1 = Ok [row] /\
       nth_error row 3 = Some junk /\ ~ design_row (kinds sp) row) /\
    (forall x, length x = model_dimensionality sp -> exists a b, round_optimum sp [x] = Ok [a; b]).
Proof. exact two_bandits_witness. Qed.
Print Assumptions C09_two_bandits_refuted.

Example C09_nonvacuous :
  exists sp isarr arms, design_space ds_bandit None = Ok sp /\ kinds sp = [KBandit isarr arms] /\
    wf_kind (KBandit isarr arms) /\ sp_dim sp = total_width (kinds sp) /\
    get_samples_without_constraints sp (dr_witness (z 77)) 1 = Ok [[z 1; z 5]].
Proof.
  exists (the_space ds_bandit None), true, [[z 0; z 0]; [z 1; z 5]; [z (-2); z 3]].
  split; [vm_compute; reflexivity|]. split; [reflexivity|]. split; [|split; [reflexivity|vmeq]].
  split; [reflexivity|]. split; [discriminate|]. simpl. intros a b [<-|[<-|[<-|[]]]] [<-|[<-|[<-|[]]]]; reflexivity.
Qed.

(** ---------------------------------------------------------------- C10 *)
Theorem C10_random_design_in_domain : forall ds cs sp dr n,
  design_space ds cs = Ok sp -> Forall wf_kind (kinds sp) -> sampleable sp -> unit_draws (dr_unif dr) ->
  exists M, get_samples_without_constraints sp dr n = Ok M /\ length M = n /\ Forall (design_row (kinds sp)) M.
Proof. exact random_main. Qed.
Print Assumptions C10_random_design_in_domain.

Theorem C10_random_design_unconstrained : forall ds sp dr n fuel,
  design_space ds None = Ok sp -> Forall wf_kind (kinds sp) -> sampleable sp -> unit_draws (dr_unif (dr 0)) ->
  exists M, random_design fuel sp dr n = Some (Ok M) /\ length M = n /\ Forall (design_row (kinds sp)) M.
Proof. exact random_unconstrained. Qed.
Print Assumptions C10_random_design_unconstrained.

Theorem C10_selected : forall ds sp fuel dr U n,
  design_space ds None = Ok sp -> Forall wf_kind (kinds sp) -> sampleable sp -> unit_draws (dr_unif (dr 0)) ->
  exists M, initial_design fuel "random" sp dr U n = Some (Ok M) /\ length M = n /\ Forall (design_row (kinds sp)) M.
Proof. intros ds sp fuel dr U n. exact (random_unconstrained ds sp dr n fuel). Qed.
Print Assumptions C10_selected.

Example C10_nonvacuous :
  exists sp, design_space ds_mixed None = Ok sp /\ Forall wf_kind (kinds sp) /\ sampleable sp /\
    unit_draws (dr_unif (mk_draws (fun v i => v + i) (fun k i => q 1 3) (fun _ _ => z 99))) /\
    get_samples_without_constraints sp (mk_draws (fun v i => v + i) (fun k i => q 1 3) (fun _ _ => z 99)) 2 =
      Ok [[z 0; z 0; z 2; z 1]; [z 0; z 0; z 0; z 4]].
Proof.
  exists (the_space ds_mixed None). split; [vm_compute; reflexivity|]. split; [|split; [|split; [|vmeq]]].
  - repeat constructor; simpl; try discriminate; qcle_dec.
  - left. repeat constructor.
  - intros k i. split; qcle_dec.
Qed.

(** ---------------------------------------------------------------- C11 *)
Theorem C11_returned_design_is_feasible_and_complete : forall ds cs sp dr n fuel S,
  design_space ds (Some cs) = Ok sp -> random_design fuel sp dr n = Some (Ok S) ->
  length S = n /\ Forall (feasible cs) S /\
  exists m Ds sel, drawn_upto sp dr n m Ds /\ selects (feasible cs) (concat Ds) sel /\ S = firstn n sel.
Proof. exact constrained_returned. Qed.
Print Assumptions C11_returned_design_is_feasible_and_complete.

Theorem C11_returns_once_enough_feasible_rows : forall ds cs sp dr n m Ds sel,
  design_space ds (Some cs) = Ok sp -> drawn_upto sp dr n m Ds -> Forall (evaluates cs) Ds ->
  selects (feasible cs) (concat Ds) sel -> n <= length sel ->
  exists R, random_design (S m) sp dr n = Some (Ok R).
Proof. exact constrained_completes. Qed.
Print Assumptions C11_returns_once_enough_feasible_rows.

Theorem C11_never_returns_without_feasible_rows : forall ds cs sp dr n,
  design_space ds (Some cs) = Ok sp -> 0 < n ->
  (forall k, exists D, get_samples_without_constraints sp (dr k) n = Ok D /\ evaluates cs D /\
     Forall (fun x => ~ feasible cs x) D) ->
  forall fuel, random_design fuel sp dr n = None.
Proof. exact constrained_diverges. Qed.
Print Assumptions C11_never_returns_without_feasible_rows.

(** More fuel never changes a result: [fuel] only bounds how long we watch the loop. *)
Theorem C11_result_independent_of_fuel : forall fuel fuel' sp dr n r,
  random_design fuel sp dr n = Some r -> fuel <= fuel' -> random_design fuel' sp dr n = Some r.
Proof. exact random_more. Qed.
Print Assumptions C11_result_independent_of_fuel.

Example C11_nonvacuous :
  let c := mk_constr None (Some (fun x => Ok (nth 0 x 0 - q 1 2)%Qc)) in
  let c' := mk_constr None (Some (fun x => Ok (z 1)%Qc)) in
  let dr := fun k => mk_draws (fun v i => v + i) (fun _ i => if Nat.eqb (k + i) 1 then q 1 3 else q 1 1) (fun _ _ => z 99) in
  random_design 9 (the_space ds_mixed (Some [c])) dr 2 = Some (Ok [[z 0; z 0; z 0; z 4]; [z 0; z 0; z 2; z 1]]) /\
  random_design 9 (the_space ds_mixed (Some [c'])) dr 2 = None /\
  (forall k, exists D, get_samples_without_constraints (the_space ds_mixed (Some [c'])) (dr k) 1 = Ok D /\
     evaluates [c'] D /\ Forall (fun x => ~ feasible [c'] x) D).
Proof. exact rejection_example. Qed.

(** ---------------------------------------------------------------- C12 *)
Theorem C12_iroot_is_integer_root : forall k n, (1 <= k)%Z -> (1 <= n)%Z ->
  exists r, iroot k n = Ok r /\ (1 <= r)%Z /\ (r ^ k <= n)%Z /\ (n < (r + 1) ^ k)%Z.
Proof. exact iroot_spec. Qed.
Print Assumptions C12_iroot_is_integer_root.

Theorem C12_root_unique : forall k n a b, (1 <= k)%Z -> (0 <= a)%Z -> (0 <= b)%Z ->
  (a ^ k <= n < (a + 1) ^ k)%Z -> (b ^ k <= n < (b + 1) ^ k)%Z -> a = b.
Proof. exact iroot_unique. Qed.
Print Assumptions C12_root_unique.

Example C12_nonvacuous : iroot 2 99 = Ok 9%Z /\ iroot 3 27 = Ok 3%Z /\ iroot 1 17 = Ok 17%Z /\ iroot 5 1000 = Ok 3%Z.
Proof. repeat split; vm_compute; reflexivity. Qed.

(** ---------------------------------------------------------------- C13 *)
Theorem C13_grid_design_is_full_lattice : forall ds sp dr n,
  design_space ds None = Ok sp -> Forall (fun k => is_continuous k = true) (kinds sp) ->
  Forall wf_kind (kinds sp) -> kinds sp <> [] -> 1 <= n ->
  exists r M, 1 <= r /\ r ^ length (kinds sp) <= n /\ n < (r + 1) ^ length (kinds sp) /\
    grid_design sp dr n = Ok M /\ length M = r ^ length (kinds sp) /\
    (2 <= r ->
      (forall x, In x M <-> lattice_point r (get_continuous_bounds sp) x) /\
      (forall x, In x M -> in_box (get_continuous_bounds sp) x) /\
      (forall x, corner (get_continuous_bounds sp) x -> In x M) /\
      (Forall (fun b => (fst b < snd b)%Qc) (get_continuous_bounds sp) -> NoDup M)).
Proof. exact grid_main. Qed.
Print Assumptions C13_grid_design_is_full_lattice.

Theorem C13_selected : forall ds sp fuel dr U n,
  design_space ds None = Ok sp -> Forall (fun k => is_continuous k = true) (kinds sp) ->
  Forall wf_kind (kinds sp) -> kinds sp <> [] -> 1 <= n ->
  exists r M, 1 <= r /\ r ^ length (kinds sp) <= n /\ n < (r + 1) ^ length (kinds sp) /\
    initial_design fuel "grid" sp dr U n = Some (Ok M) /\ length M = r ^ length (kinds sp) /\
    (2 <= r -> forall x, In x M <-> lattice_point r (get_continuous_bounds sp) x).
Proof.
  intros ds sp fuel dr U n D C W N L. destruct (grid_main ds sp (dr 0) n D C W N L) as (r & M & H1 & H2 & H3 & H4 & H5 & H6).
  exists r, M. do 3 (split; [assumption|]). split; [exact (f_equal Some H4)|]. split; [assumption|]. intro R. exact (proj1 (H6 R)).
Qed.
Print Assumptions C13_selected.

Example C13_nonvacuous :
  let ds := [d_cont "a" (z 0) (z 1); d_cont "b" (z 2) (z 4)] in
  exists sp, design_space ds None = Ok sp /\ Forall (fun k => is_continuous k = true) (kinds sp) /\
    Forall wf_kind (kinds sp) /\ get_continuous_bounds sp = [(z 0, z 1); (z 2, z 4)] /\
    grid_design sp (dr_witness (z 7)) 8 = Ok [[z 0; z 2]; [z 0; z 4]; [z 1; z 2]; [z 1; z 4]].
Proof.
  intro ds. exists (the_space ds None). split; [vm_compute; reflexivity|]. split; [repeat constructor|].
  split; [repeat constructor; qcle_dec|]. split; vmeq.
Qed.

(** ---------------------------------------------------------------- C14 *)
Theorem C14_unit_designs_scaled_and_stratified : forall ds sp dr U n,
  design_space ds None = Ok sp -> Forall wf_kind (kinds sp) -> bandit_free (kinds sp) ->
  length U = n -> Forall (unit_row (length (get_continuous_bounds sp))) U ->
  exists M dims, unit_design sp dr U n = Ok M /\ length M = n /\ Forall (Forall2 user_value (kinds sp)) M /\
    get_continuous_dims sp = Ok dims /\
    forall k j lo hi us, nth_error dims k = Some j -> nth_error (get_continuous_bounds sp) k = Some (lo, hi) ->
      column k U = map Some us ->
      column j M = map Some (map (fun u => lo + u * (hi - lo))%Qc us) /\
      ((lo < hi)%Qc -> stratified 0 1 n us -> stratified lo hi n (map (fun u => lo + u * (hi - lo))%Qc us)).
Proof. exact unit_main. Qed.
Print Assumptions C14_unit_designs_scaled_and_stratified.

Theorem C14_selected : forall ds sp fuel dr U n name, In name ["sobol"; "latin"] ->
  design_space ds None = Ok sp -> Forall wf_kind (kinds sp) -> bandit_free (kinds sp) ->
  length U = n -> Forall (unit_row (length (get_continuous_bounds sp))) U ->
  exists M dims, initial_design fuel name sp dr U n = Some (Ok M) /\ length M = n /\ Forall (Forall2 user_value (kinds sp)) M /\
    get_continuous_dims sp = Ok dims /\
    forall k j lo hi us, nth_error dims k = Some j -> nth_error (get_continuous_bounds sp) k = Some (lo, hi) ->
      column k U = map Some us ->
      column j M = map Some (map (fun u => lo + u * (hi - lo))%Qc us) /\
      ((lo < hi)%Qc -> stratified 0 1 n us -> stratified lo hi n (map (fun u => lo + u * (hi - lo))%Qc us)).
Proof.
  intros ds sp fuel dr U n name Hn D W B L F. destruct (unit_main ds sp (dr 0) U n D W B L F) as (M & dims & H1 & H2).
  exists M, dims. split; [|exact H2]. destruct Hn as [<- | [<- | []]]; exact (f_equal Some H1).
Qed.
Print Assumptions C14_selected.

Example C14_nonvacuous :
  let U := [[q 3 4; q 1 4]; [q 1 4; q 3 4]] in
  exists sp, design_space ds_mixed None = Ok sp /\ bandit_free (kinds sp) /\
    Forall (unit_row (length (get_continuous_bounds sp))) U /\ get_continuous_dims sp = Ok [0; 1] /\
    stratified 0 1 2 [q 3 4; q 1 4] /\
    unit_design sp (mk_draws (fun v i => v + i) (fun _ _ => z 0) (fun _ _ => z 99)) U 2 =
      Ok [[q 5 4; q (-1) 4; z 2; z 1]; [q (-1) 4; q 5 4; z 0; z 4]].
Proof. exact unit_example. Qed.

(** ---------------------------------------------------------------- C15 *)
Theorem C15_unknown_design : forall fuel name sp dr U n, ~ In name ["random"; "sobol"; "grid"; "latin"] ->
  initial_design fuel name sp dr U n = Some (Raise ValueError).
Proof. exact initial_design_unknown. Qed.
Print Assumptions C15_unknown_design.

Theorem C15_constrained_designs : forall ds cs sp fuel dr U n, design_space ds (Some cs) = Ok sp ->
  (forall name, In name ["sobol"; "grid"; "latin"] ->
     initial_design fuel name sp dr U n = Some (Raise InvalidConfigError)) /\
  (forall name M, initial_design fuel name sp dr U n = Some (Ok M) -> length M = n /\ Forall (feasible cs) M).
Proof. exact initial_design_constrained. Qed.
Print Assumptions C15_constrained_designs.

Example C15_nonvacuous :
  let c := mk_constr None (Some (fun x => Ok (nth 0 x 0 - q 1 2)%Qc)) in
  let dr := fun k => mk_draws (fun v i => v + i) (fun _ i => if Nat.eqb (k + i) 1 then q 1 3 else q 1 1) (fun _ _ => z 99) in
  exists sp, design_space ds_mixed (Some [c]) = Ok sp /\
    initial_design 9 "random" sp dr [] 2 = Some (Ok [[z 0; z 0; z 0; z 4]; [z 0; z 0; z 2; z 1]]).
Proof. intros c dr. exists (the_space ds_mixed (Some [c])). split; [vm_compute; reflexivity|vmeq]. Qed.

(** ---------------------------------------------------------------- C16 *)
Theorem C16_grid_without_continuous_variables_raises : forall ds sp dr n,
  design_space ds None = Ok sp -> bandit_free (kinds sp) -> existsb is_continuous (kinds sp) = false ->
  grid_design sp dr n = Raise ZeroDivisionError.
Proof. exact grid_without_continuous. Qed.
Print Assumptions C16_grid_without_continuous_variables_raises.

Theorem C16_grid_on_a_wide_bandit_raises : forall ds sp dr n isarr a arms,
  design_space ds None = Ok sp -> kinds sp = [KBandit isarr (a :: arms)] -> 2 <= sp_dim sp ->
  grid_design sp dr n = Raise IndexError.
Proof. exact grid_on_bandits. Qed.
Print Assumptions C16_grid_on_a_wide_bandit_raises.

Theorem C16_grid_with_continuous_variables_succeeds : forall ds sp dr n,
  design_space ds None = Ok sp -> Forall wf_kind (kinds sp) -> bandit_free (kinds sp) ->
  existsb is_continuous (kinds sp) = true -> 1 <= n ->
  exists r M, let d := length (filter is_continuous (kinds sp)) in
    grid_design sp dr n = Ok M /\ length M = r ^ d /\ r ^ d <= n /\ n < (r + 1) ^ d /\
    Forall (Forall2 user_value (kinds sp)) M.
Proof. exact grid_with_continuous_main. Qed.
Print Assumptions C16_grid_with_continuous_variables_succeeds.

Example C16_nonvacuous :
  (exists sp, design_space [d_disc "c" [z 1; z 4]] None = Ok sp /\ grid_design sp (dr_witness (z 0)) 5 = Raise ZeroDivisionError) /\
  (exists sp, design_space ds_bandit None = Ok sp /\ 2 <= sp_dim sp) /\
  (exists sp, design_space ds_mixed None = Ok sp /\ existsb is_continuous (kinds sp) = true /\
     grid_design sp (dr_witness (z 0)) 5 =
       Ok [[z (-1); z (-1); z 1; z 4]; [z (-1); z 2; z 1; z 4]; [z 2; z (-1); z 1; z 4]; [z 2; z 2; z 1; z 4]]).
Proof.
  split; [|split].
  - exists (the_space [d_disc "c" [z 1; z 4]] None). split; [vm_compute; reflexivity|vmeq].
  - exists (the_space ds_bandit None). split; [vm_compute; reflexivity|]. simpl. auto.
  - exists (the_space ds_mixed None). split; [vm_compute; reflexivity|]. split; [reflexivity|vmeq].
Qed.
