(** C56-C58, C72-C74: the surrogate models.  Specification: Spec/ModelSpec.v, Spec/CovSpec.v.  Model: Model/Models.v, Model/AcqR.v. *)
From Coq Require Import String List Bool Arith Lia ZArith Qcanon Reals.
From Verif.Model Require Import Py Space Design Optim Objective BO Call Models AcqR.
From Verif.Spec Require Import ModelSpec CovSpec BOSpec Examples BOExamples.
From Verif.Proof Require Import ModelP ModelLoop CovP.
Import ListNotations.
Local Open Scope nat_scope.
Local Open Scope string_scope.
Local Open Scope list_scope.

(** ---------------------------------------------------------------- C56 *)
(** [sample n] are the n rows an HMC sampler returns. *)
Theorem C56_samples_kept : forall P (sample : nat -> list (list P)) n_samples n_burnin interval, (forall n, length (sample n) = n) ->
  match hmc_samples sample n_samples n_burnin interval with
  | Ok l => length l = n_samples /\ 1 <= interval /\
            forall k, k < n_samples -> nth_error l k = nth_error (sample (n_burnin + n_samples * interval)) (n_burnin + k * interval)
  | Raise e => interval = 0 /\ e = ValueError
  end.
Proof. exact @hmc_count. Qed.
Print Assumptions C56_samples_kept.
(** [pr p] is what one pass of the loop computes with the parameters p.  A call returns exactly when every sample can be written
    and evaluated; then there is one result per sample, that of the original parameters with the sample written into them, and the
    parameters are back to the original ones. *)
Theorem C56_one_result_per_sample : forall P B fixes (pr : list P -> res B) samples ps p' bs,
  over_hmc fixes pr samples ps = (p', Ok bs) <->
  p' = ps /\ Forall2 (fun s b => exists q, used fixes s ps q /\ pr q = Ok b) samples bs.
Proof. exact @over_hmc_ok. Qed.
Print Assumptions C56_one_result_per_sample.
(** When a prediction raises, the parameters may be left at the sample that failed. *)
Theorem C56_after_an_exception : forall P B fixes (pr : list P -> res B) samples ps p' e,
  over_hmc fixes pr samples ps = (p', Raise e) -> p' = ps \/ exists s, In s samples /\ used fixes s ps p'.
Proof. exact @over_hmc_raise. Qed.
Print Assumptions C56_after_an_exception.
Theorem C56_restored_after_exception_refuted : exists (fixes : option (list bool)) (pr : list nat -> res nat) samples ps p' e,
  over_hmc fixes pr samples ps = (p', Raise e) /\ p' <> ps.
Proof. exact over_hmc_crash. Qed.
Print Assumptions C56_restored_after_exception_refuted.
Example C56_nonvacuous :
  hmc_samples (fun n => map (fun i => [i]) (seq 0 n)) 3 2 4 = Ok [[2]; [6]; [10]] /\
  over_hmc (Some [true; false; true]) (fun p => Ok (fold_right plus 0 p)) [[1; 2]; [3; 4]] [7; 8; 9] = ([7; 8; 9], Ok [11; 15]) /\
  used (Some [true; false; true]) [3; 4] [7; 8; 9] [3; 8; 4].
Proof. split; [reflexivity|]. split; [reflexivity|]. cbn. repeat constructor. Qed.

(** ---------------------------------------------------------------- C57 *)
(** [C] is the covariance matrix of the GPy model. *)
Theorem C57_right_exactly_when : forall n (C : nat -> nat -> R),
  (forall i j, i < n -> j < n -> gp_predict_covariance C i j = C i j) <-> (forall i j, i < n -> j < n -> (/ 10 ^ 10 <= C i j)%R).
Proof. exact cov_right. Qed.
Print Assumptions C57_right_exactly_when.
Theorem C57_entries : forall C i j, gp_predict_covariance C i j = Rmax (/ 10 ^ 10) (C i j).
Proof. exact cov_entries. Qed.
Print Assumptions C57_entries.
Theorem C57_symmetric : forall C, (forall i j, C i j = C j i) -> forall i j, gp_predict_covariance C i j = gp_predict_covariance C j i.
Proof. exact cov_symmetric. Qed.
Print Assumptions C57_symmetric.
(** The result of a covariance matrix need not be one. *)
Theorem C57_covariance_refuted : exists C, psd 4 C /\ (forall i j, C i j = C j i) /\ (forall i, i < 4 -> C i i = 1%R) /\ ~ psd 4 (gp_predict_covariance C).
Proof. exact cov_not_psd. Qed.
Print Assumptions C57_covariance_refuted.
Example C57_nonvacuous : (/ 10 ^ 10 <= gram 0 2)%R /\ (gram 0 3 < / 10 ^ 10)%R /\ psd 4 gram.
Proof. unfold gram, gx, gy. split; [Lra.lra|]. split; [Lra.lra|exact gram_psd]. Qed.

(** ---------------------------------------------------------------- C58 *)
Theorem C58_warped_columns : forall ds cs sp, design_space ds cs = Ok sp -> (forall v, In v (sp_xvars sp) -> has_categories v) -> numerical_first sp ->
  NoDup (warping_indices sp) /\ forall j, In j (warping_indices sp) <-> numerical_column sp j.
Proof. exact warping_right. Qed.
Print Assumptions C58_warped_columns.
(** The order is needed: in every other space some warped column does not belong to a numerical variable. *)
Theorem C58_only_then : forall ds cs sp, design_space ds cs = Ok sp -> (forall v, In v (sp_xvars sp) -> has_categories v) ->
  (forall j, In j (warping_indices sp) -> numerical_column sp j) -> numerical_first sp.
Proof. exact warping_wrong. Qed.
Print Assumptions C58_only_then.
Theorem C58_warped_columns_refuted : exists ds sp v, design_space ds None = Ok sp /\ In v (sp_xvars sp) /\ x_kind v = KCat [z 0; z 1; z 2] /\
  (exists j, In j (warping_indices sp) /\ In j (x_idx_mod v)) /\ (exists j, numerical_column sp j /\ ~ In j (warping_indices sp)).
Proof.
  exists ds_mixed, (the_space ds_mixed None). eexists. split; [vm_compute; reflexivity|]. split; [right; right; left; reflexivity|]. split; [vm_compute; reflexivity|].
  split; [exists 3; split; vm_compute; tauto|]. exists 5. split.
  - eexists. split; [right; right; right; left; reflexivity|]. split; vm_compute; tauto.
  - vm_compute. intros H. repeat (destruct H as [H|H]; [discriminate|]). exact H.
Qed.
Print Assumptions C58_warped_columns_refuted.
Definition ds_sorted : list descr := [ with_dim (d_cont "a" (z (-1)) (z 2)) 2; d_disc "c" [z 1; z 4; z 9]; d_cat "b" [z 0; z 1; z 2] ].
Example C58_nonvacuous : exists sp, design_space ds_sorted None = Ok sp /\ (forall v, In v (sp_xvars sp) -> has_categories v) /\ numerical_first sp /\ warping_indices sp = [0; 1; 2].
Proof.
  eexists. split; [vm_compute; reflexivity|]. split; [|split].
  - intros v H. repeat (destruct H as [<-|H]; [cbn; first [exact I|discriminate]|]). destruct H.
  - intros a v b E SP w W. destruct a as [|a1 [|a2 [|a3 [|a4 a]]]]; cbn in E; try (injection E; intros; subst); try (cbn in SP; tauto); try (destruct W).
    destruct a; discriminate.
  - vm_compute. reflexivity.
Qed.

(** ---------------------------------------------------------------- C72 *)
(** After any number of updates of a fresh GPModel: the GPy model was built once, with the chosen settings; it holds the latest data;
    every update ran one optimisation (none if max_iters = 0). *)
Theorem C72_updates : forall K N F D (g : gpmodel K N F D) d0 ds, gp_model g = None ->
  let g' := updates g (d0 :: ds) in
  same_settings g g' /\ gp_kernel g' = None /\
  exists m, gp_model g' = Some m /\ b_data m = last ds d0 /\ b_kern m = first_kernel g d0 /\
    b_inducing m = (if gp_sparse g then Some (gp_inducing g) else None) /\
    b_noise m = (if gp_sparse g then None else Some (gp_noise g)) /\ b_mean m = gp_meanf g /\ b_exact m = gp_exact g /\
    b_opts m = concat (repeat (one_opt g) (S (length ds))).
Proof. exact @updates_spec. Qed.
Print Assumptions C72_updates.
Definition a_gp (sparse : bool) (meanf : option nat) : gpmodel nat nat nat nat := mk_gp (Some (Given 3)) (Some 4) true "bfgs" 100 1 sparse 12 false true meanf None.
Example C72_nonvacuous : exists m, gp_model (updates (a_gp true None) [10; 20; 30]) = Some m /\ b_data m = 30 /\ b_kern m = Given 3 /\ b_noise m = None /\ length (b_opts m) = 3.
Proof. eexists. split; [vm_compute; reflexivity|]. repeat split. Qed.

(** ---------------------------------------------------------------- C73 *)
(** A copy has the data, the kernel (copied) and the settings of the original, except that it is never sparse and has no mean
    function; so it is of the same kind exactly when the original is neither sparse nor has a mean function. *)
Theorem C73_copy : forall K N F D (g : gpmodel K N F D) m, gp_model g = Some m ->
  exists c mc, copy g = Ok c /\ gp_model c = Some mc /\ b_data mc = b_data m /\ b_kern mc = CopyOf (b_kern m) /\
    gp_noise c = gp_noise g /\ gp_exact c = gp_exact g /\ gp_optimizer c = gp_optimizer g /\ gp_iters c = gp_iters g /\ gp_restarts c = gp_restarts g /\ gp_verbose c = gp_verbose g /\ gp_ARD c = gp_ARD g /\
    b_noise mc = Some (gp_noise g) /\ b_exact mc = gp_exact g /\ b_inducing mc = None /\ b_mean mc = None.
Proof. exact @copy_spec. Qed.
Print Assumptions C73_copy.
Theorem C73_same_kind_exactly_when : forall K N F D (g : gpmodel K N F D) d0 ds m c mc,
  gp_model g = None -> gp_model (updates g (d0 :: ds)) = Some m -> copy (updates g (d0 :: ds)) = Ok c -> gp_model c = Some mc ->
  (same_gp m mc <-> gp_sparse g = false /\ gp_meanf g = None).
Proof. exact @copy_kind. Qed.
Print Assumptions C73_same_kind_exactly_when.
(** Copying a GPModel_MCMC always raises. *)
Theorem C73_mcmc_copy_refuted : mcmc_copy = Raise TypeError.
Proof. exact mcmc_copy_fails. Qed.
Print Assumptions C73_mcmc_copy_refuted.
Example C73_nonvacuous : exists m c mc, gp_model (updates (a_gp false None) [10; 20]) = Some m /\ copy (updates (a_gp false None) [10; 20]) = Ok c /\ gp_model c = Some mc /\
  same_gp m mc /\ b_data mc = 20 /\ call sig_GPModel_MCMC 0 mcmc_copy_keywords = Ok tt.
Proof. do 3 eexists. split; [vm_compute; reflexivity|]. split; [vm_compute; reflexivity|]. split; [vm_compute; reflexivity|]. repeat split. Qed.

(** ---------------------------------------------------------------- C74 *)
(** A surrogate without get_model_parameters: whatever sequence of runs and suggestions is tried, no row, value or call of the
    objective is ever added, and no suggestion is ever returned. *)
Theorem C74_nothing_is_acquired : forall M (E : env M), (forall m, e_params E m = None) -> forall ops s Y s',
  e_obj E <> None -> s_Y s = Some Y -> history_caught E s ops s' -> s_X s' = s_X s /\ s_Y s' = s_Y s /\ s_hist s' = s_hist s.
Proof. exact @np_history. Qed.
Print Assumptions C74_nothing_is_acquired.
Theorem C74_no_suggestion : forall M (E : env M), (forall m, e_params E m = None) -> forall s ctx pending ignored,
  exists s' e, suggest_next_locations E s ctx pending ignored = (s', Some (Raise e)) /\ s_X s' = s_X s /\ s_Y s' = s_Y s /\ s_hist s' = s_hist s.
Proof. exact @np_suggest. Qed.
Print Assumptions C74_no_suggestion.
(** If training succeeds the exception is AttributeError; this is so for exactly the classes of the types 'RF' and 'warpedGP'. *)
Theorem C74_attribute_error : forall M (E : env M), (forall m, e_params E m = None) -> forall fuel s Y max_iter max_time eps ctx o Xm,
  e_obj E = Some o -> s_Y s = Some Y -> Y <> [] -> 0 < fuel -> (forall t, max_time = LFin t -> (0 < t)%Qc) ->
  e_interval E <> 0%Z -> unzip_inputs (e_space E) (s_X s) = Ok Xm -> (forall m X Y, snd (e_update E m X Y) = None) ->
  exists s', run_optimization fuel E s max_iter max_time eps ctx = (s', Some (Raise AttributeError)).
Proof. exact @np_attribute_error. Qed.
Print Assumptions C74_attribute_error.
Theorem C74_which_types : forall t c b, model_creator t = Some (c, b) -> (has_get_model_parameters c = false <-> t = "RF" \/ t = "warpedGP").
Proof.
  intros t c b. unfold model_creator.
  destruct (String.eqb_spec t "GP") as [->|N1]; [intros [= <- _]; split; [discriminate|intros [H|H]; discriminate]|].
  destruct (String.eqb_spec t "sparseGP") as [->|N2]; [intros [= <- _]; split; [discriminate|intros [H|H]; discriminate]|].
  destruct (String.eqb_spec t "GP_MCMC") as [->|N3]; [intros [= <- _]; split; [discriminate|intros [H|H]; discriminate]|].
  destruct (String.eqb_spec t "RF") as [->|N4]; [intros [= <- _]; split; [auto|reflexivity]|].
  destruct (String.eqb_spec t "warpedGP") as [->|N5]; [intros [= <- _]; split; [auto|reflexivity]|].
  destruct (String.eqb_spec t "input_warped_GP") as [->|N6]; [intros [= <- _]; split; [discriminate|intros [H|H]; discriminate]|discriminate].
Qed.
Print Assumptions C74_which_types.
Definition toy_rf (o : option objective) : env nat :=
  mk_env nat line true 1 None o (fun m _ _ => (S m, Some (Ok [[nat2q (S m)]]))) (fun m X Y => (m, None)) (fun m => None) nat2q (fun x => x) (fun _ _ => None).
Example C74_nonvacuous : exists s', run_optimization 10 (toy_rf (Some obj1)) (fresh (Some [z 9; z 16])) (LFin (z 5)) LNone q0 None = (s', Some (Raise AttributeError)) /\ length (s_updates s') = 1 /\
  exists X, unzip_inputs line (s_X (fresh None)) = Ok X.
Proof. eexists. split; [vm_compute; reflexivity|]. split; [vm_compute; reflexivity|]. eexists. vm_compute. reflexivity. Qed.
