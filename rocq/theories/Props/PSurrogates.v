(** C114: the surrogates other than GPModel after updates. *)
From Coq Require Import Reals Lra.
From Coq Require Import String List Bool Arith ZArith QArith Qcanon Lia.
From Verif.Model Require Import Py Space Objective Models AcqR Surrogates.
From Verif.Spec Require Import ModelSpec SurrogatesSpec Examples.
From Verif.Proof Require Import Num Dec BOP ModelP SurrogatesP.
Import ListNotations.
Local Open Scope nat_scope.
Local Open Scope string_scope.
Local Open Scope list_scope.

(** WarpedGPModel: built once, for the first data; holds the latest data; every update runs one optimisation, also with
    max_iters = 0. *)
Theorem C114_warped : forall K N W (g : warped K N W) (d0 : data) ds n, wm_model g = None -> width n (fst d0) ->
  exists m, wm_model (warped_updates g (d0 :: ds)) = Some m /\
    w_kern m = (match wm_kernel g with Some k => k | None => Matern32 n end) /\ w_fun m = wm_fun g /\ w_terms m = wm_terms g /\
    w_constraint m = (if wm_exact g then NFixed else NPositive) /\ w_data m = last ds d0 /\
    w_opts m = repeat (wm_optimizer g, wm_iters g, wm_verbose g) (S (List.length ds)) /\
    wm_kernel (warped_updates g (d0 :: ds)) = Some (w_kern m).
Proof. intros K N W g d0 ds n M WD. rewrite <- (width_ncols n d0 WD). now apply warped_spec. Qed.
Print Assumptions C114_warped.
(** Its noise variance and its number of restarts change nothing. *)
Theorem C114_warped_options_refuted : forall K N W (g : warped K N W) n r ds, wm_model g = None ->
  wm_model (warped_updates (warped_options n r g) ds) = wm_model (warped_updates g ds).
Proof. exact @warped_same. Qed.
Print Assumptions C114_warped_options_refuted.

(** InputWarpedGPModel: built once; the latest data; the optimisations of a GPModel. *)
Theorem C114_input_warped : forall K N W (g : iwarped K N W) (d0 : data) ds n, im_model g = None -> width n (fst d0) ->
  exists m, im_model (iwarped_updates g (d0 :: ds)) = Some m /\
    i_kern m = (match im_kernel g with Some k => k | None => Matern52d n (im_ARD g) end) /\ i_fun m = im_fun g /\ i_indices m = im_indices g /\
    i_constraint m = (if im_exact g then NFixed else NBounded) /\ i_data m = last ds d0 /\
    i_opts m = concat (repeat (one_call (im_optimizer g) (im_iters g) (im_restarts g)) (S (List.length ds))).
Proof.
  intros K N W g d0 ds n M WD. rewrite <- (width_ncols n d0 WD). destruct (iwarped_spec g d0 ds M) as (m & A & B & C & D & _ & _ & E & F & H).
  exists m. do 6 (split; [assumption|]). exact H.
Qed.
Print Assumptions C114_input_warped.
(** The columns it warps are those of the numerical variables of the space (under the conditions of C58). *)
Theorem C114_warped_columns : forall K N W ds cs sp fn (kn : option (kernel K)) (noise : option N) exact opt iters restarts verbose ard (d0 : data) data m,
  design_space ds cs = Ok sp -> (forall v, In v (sp_xvars sp) -> has_categories v) -> numerical_first sp ->
  im_model (iwarped_updates (new_iwarped (W := W) sp fn kn noise exact opt iters restarts verbose ard) (d0 :: data)) = Some m ->
  i_fun m = fn /\ NoDup (i_indices m) /\ (forall j, In j (i_indices m) <-> numerical_column sp j).
Proof.
  intros K N W ds cs sp fn kn noise exact opt iters restarts verbose ard d0 data m D HC NF E.
  destruct (iwarped_spec (new_iwarped (W := W) sp fn kn noise exact opt iters restarts verbose ard) d0 data eq_refl) as (m' & A & _ & B & C & _).
  rewrite E in A. injection A as <-. rewrite B, C. split; [reflexivity|]. now apply warping_right with ds cs.
Qed.
Print Assumptions C114_warped_columns.
Theorem C114_input_warped_noise_refuted : forall K N W (g : iwarped K N W) n ds,
  im_model (iwarped_updates (iwarped_noise n g) ds) = im_model (iwarped_updates g ds).
Proof. exact @iwarped_same. Qed.
Print Assumptions C114_input_warped_noise_refuted.
(** The range it is told to warp is that of the first data ... *)
Theorem C114_warping_range : forall K N W (g : iwarped K N W) (d0 : data) (ds : list data) n m, im_model g = None -> width n (fst d0) ->
  im_model (iwarped_updates g (d0 :: ds)) = Some m -> bounds_of n (fst d0) (i_Xmin m) (i_Xmax m).
Proof.
  intros K N W g d0 ds n m M WD E. destruct (iwarped_spec g d0 ds M) as (m' & A & _ & _ & _ & B & C & _). rewrite E in A. injection A as <-.
  rewrite B, C. now apply axis0_bounds.
Qed.
Print Assumptions C114_warping_range.
(** ... hence that of the latest data, if these contain the first, exactly when no later point lies outside. *)
Theorem C114_warping_range_exactly_when : forall K N W (g : iwarped K N W) (d0 : data) (ds : list data) n m, im_model g = None ->
  width n (fst d0) -> width n (fst (last ds d0)) -> incl (fst d0) (fst (last ds d0)) ->
  im_model (iwarped_updates g (d0 :: ds)) = Some m ->
  (bounds_of n (fst (last ds d0)) (i_Xmin m) (i_Xmax m) <-> Forall (inside (i_Xmin m) (i_Xmax m)) (fst (last ds d0))).
Proof.
  intros K N W g d0 ds n m M WD WL I E. destruct (iwarped_spec g d0 ds M) as (m' & A & _ & _ & _ & B & C & _). rewrite E in A. injection A as <-.
  rewrite B, C. now apply box_exactly.
Qed.
Print Assumptions C114_warping_range_exactly_when.
Definition an_input_warped : iwarped nat nat nat := mk_iwarped [0] None None (Some 5) false "bfgs" 100 5 false true None.
Definition two_rows : data := ([[z 1; z 3]; [z 2; z 0]], [z 7; z 8]).
Definition three_rows : data := ([[z 1; z 3]; [z 2; z 0]; [z 5; z 1]], [z 7; z 8; z 9]).
Definition three_inside : data := ([[z 1; z 3]; [z 2; z 0]; [z 2; z 1]], [z 7; z 8; z 9]).
Theorem C114_warping_range_refuted : exists m r, im_model (iwarped_updates an_input_warped [two_rows; three_rows]) = Some m /\
  In r (fst (i_data m)) /\ ~ inside (i_Xmin m) (i_Xmax m) r.
Proof.
  eexists. exists [z 5; z 1]. split; [vm_compute; reflexivity|]. split; [cbn; auto|]. intros H.
  destruct (H 0 _ _ _ eq_refl eq_refl eq_refl) as [_ B]. revert B. vm_compute. intros B. now apply B.
Qed.
Print Assumptions C114_warping_range_refuted.
Example C114_nonvacuous_input_warped : exists m, im_model (iwarped_updates an_input_warped [two_rows; three_inside]) = Some m /\
  i_Xmin m = [z 1; z 0] /\ i_Xmax m = [z 2; z 3] /\ i_data m = three_inside /\ i_kern m = Matern52d 2 true /\ i_opts m = [Restarts 5 "bfgs" 100; Restarts 5 "bfgs" 100] /\
  width 2 (fst two_rows) /\ incl (fst two_rows) (fst three_inside).
Proof.
  eexists. split; [vm_compute; reflexivity|]. split; [vm_compute; reflexivity|]. split; [vm_compute; reflexivity|]. split; [reflexivity|]. split; [reflexivity|]. split; [reflexivity|].
  split; [split; [discriminate|repeat constructor]|]. intros r H. cbn in *. tauto.
Qed.
Example C114_nonvacuous_warped : exists m, wm_model (warped_updates (mk_warped (Some (Supplied 3)) (Some 4) true "bfgs" 0 5 (None : option nat) 3 false None) [two_rows; three_rows]) = Some m /\
  w_kern m = Supplied 3 /\ w_constraint m = NFixed /\ w_data m = three_rows /\ w_opts m = [("bfgs", 0, false); ("bfgs", 0, false)].
Proof. eexists. split; [vm_compute; reflexivity|]. repeat split. Qed.

(** GPModel_MCMC: built once with the chosen noise variance and kernel; holds the latest data ... *)
Theorem C114_mcmc : forall K N P Rnd init optimise perturb hmc (g : mcmc K N P) (z0 : Rnd) (d0 : data) l g' n, mm_model g = None -> width n (fst d0) ->
  mcmc_updates init optimise perturb hmc g ((z0, d0) :: l) g' ->
  exists m, mm_model g' = Some m /\ m_kern m = (match mm_kernel g with Some k => k | None => RBF n end) /\ m_noise m = mm_noise g /\
    m_constraint m = (if mm_exact g then NFixed else NPositive) /\ m_data m = last (map snd l) d0 /\ mm_kernel g' = None.
Proof. intros K N P Rnd init optimise perturb hmc g z0 d0 l g' n M WD. rewrite <- (width_ncols n d0 WD). now apply mcmc_spec. Qed.
Print Assumptions C114_mcmc.
(** ... and the samples it predicts with are n_samples rows of a chain run on the latest data alone, after the burn-in, from the
    parameters the model had before, optimised for the latest data and then perturbed. *)
Theorem C114_mcmc_samples : forall K N P Rnd init optimise perturb hmc (g : mcmc K N P) l (z0 : Rnd) (d : data) g' n,
  (forall z d s n i p, List.length (fst (hmc z d s n i p)) = n) -> width n (fst d) ->
  mcmc_updates init optimise perturb hmc g (l ++ [(z0, d)]) g' ->
  exists g1 ss, mcmc_updates init optimise perturb hmc g l g1 /\ mm_hmc g' = Some ss /\ List.length ss = mm_samples g /\
    let start := perturb z0 (optimise d (params_before init g1 n d)) in
    forall k, k < mm_samples g -> nth_error ss k =
      nth_error (fst (hmc z0 d (mm_step g) (mm_burnin g + mm_samples g * mm_interval g) (mm_leapfrog g) start)) (mm_burnin g + k * mm_interval g).
Proof.
  intros K N P Rnd init optimise perturb hmc g l z0 d g' n HL WD U. destruct (mcmc_last _ _ _ _ _ _ _ _ _ U) as (_ & g1 & ss & U1 & A & -> & I).
  assert (PB : params_before init g1 n d = snd (SurrogatesP.started init g1 d)).
  { unfold params_before, SurrogatesP.started. rewrite (width_ncols n d WD). destruct (mm_model g1); reflexivity. }
  exists g1. eexists. split; [exact U1|]. split; [exact A|]. rewrite PB.
  pose proof (hmc_count (fun n => fst (hmc z0 d (mm_step g) n (mm_leapfrog g) (perturb z0 (optimise d (snd (SurrogatesP.started init g1 d)))))) (mm_samples g) (mm_burnin g) (mm_interval g) (fun n => HL _ _ _ _ _ _)) as H.
  unfold hmc_samples in H. destruct (Nat.eqb_spec (mm_interval g) 0) as [Z|Z]; [lia|]. destruct H as (L & _ & E). split; [exact L|exact E].
Qed.
Print Assumptions C114_mcmc_samples.
(** With subsample_interval = 0 an update raises after the data have been exchanged: the old samples stay. *)
Theorem C114_mcmc_stale_refuted : forall K N P Rnd init optimise perturb hmc (g : mcmc K N P) (z0 : Rnd) d g' r, mm_interval g = 0 ->
  mcmc_update init optimise perturb hmc g z0 d = (g', r) ->
  r = Raise ValueError /\ mm_hmc g' = mm_hmc g /\ exists m, mm_model g' = Some m /\ m_data m = d.
Proof.
  intros K N P Rnd init optimise perturb hmc g z0 d g' r I U. destruct (mcmc_step _ _ _ _ _ _ _ _ _ U) as (_ & _ & m & M & D & _ & _ & Z & _).
  destruct (Z I) as [-> H]. eauto.
Qed.
Print Assumptions C114_mcmc_stale_refuted.
Definition chain (s0 : nat) (d : data) (st : Qc) (n it : nat) (p : list nat) : list (list nat) * list nat :=
  (map (fun k => [s0 + k + List.length (snd d)]) (seq 0 n), [n]).
Definition a_mcmc : mcmc nat nat nat := mk_mcmc None (Some 2) false 3 2 4 (z 1) 20 None None.
Example C114_nonvacuous_mcmc : exists g', mcmc_updates (fun _ _ _ => [0]) (fun _ p => p) (fun _ p => p) chain a_mcmc [(10, two_rows); (100, three_rows)] g' /\
  mm_hmc g' = Some [[107]; [109]; [111]].
Proof. eexists. split; [econstructor; [vm_compute; reflexivity|]; econstructor; [vm_compute; reflexivity|]; constructor|reflexivity]. Qed.

(** RFModel: the forest is the one fitted to the latest data; it predicts a mean between the predictions of its trees, and a
    deviation that is zero exactly when they agree; the incumbent is the least predicted mean over the latest data. *)
Local Open Scope R_scope.
Theorem C114_forest : forall fit refit ds X Y, let g := rf_updates fit refit (new_rf false) (ds ++ [(X, Y)]) in let f := fit X Y in f <> [] ->
  (forall x, exists m s, rf_predict g x = Some (m, s) /\
    (forall lo hi, (forall t, In t f -> lo <= t x <= hi) -> lo <= m <= hi) /\
    0 <= s /\ (s = 0 <-> forall t u, In t f -> In u f -> t x = u x)) /\
  (X <> [] -> exists y, rf_get_fmin g = Some y /\ (exists x s, In x X /\ rf_predict g x = Some (y, s)) /\
    forall x m s, In x X -> rf_predict g x = Some (m, s) -> y <= m).
Proof.
  intros fit refit ds X Y g f NE. destruct (rf_cold fit refit ds (X, Y)) as (A & B & _). fold g in A, B. cbn [fst snd] in A, B. fold f in A. split.
  - intros x. unfold rf_predict. rewrite A. do 2 eexists. split; [reflexivity|].
    assert (N2 : map (fun t : tree => t x) f <> []) by (destruct f; [easy|discriminate]). split; [|split; [apply std_nonneg|]].
    + intros lo hi H. apply mean_bound; [exact N2|]. apply List.Forall_forall. intros v V. apply in_map_iff in V. destruct V as (t & <- & T). auto.
    + rewrite std_zero by exact N2. split.
      * intros H t u T U. apply H; apply in_map_iff; eauto.
      * intros H u v U V. apply in_map_iff in U, V. destruct U as (t & <- & T). destruct V as (w & <- & Wd). auto.
  - intros NX. unfold rf_get_fmin. rewrite A, B. eexists. split; [reflexivity|]. unfold rf_predict. rewrite A. destruct X as [|x0 X]; [easy|]. cbn [map minimum].
    destruct (fold_min (map (fun x => np_mean (map (fun t : tree => t x) f)) X) (np_mean (map (fun t : tree => t x0) f))) as [P Q]. split.
    + change (In (fold_left Rmin (map (fun x => np_mean (map (fun t : tree => t x) f)) X) (np_mean (map (fun t : tree => t x0) f)))
        (map (fun x => np_mean (map (fun t : tree => t x) f)) (x0 :: X))) in P. apply in_map_iff in P. destruct P as (x & E & I). exists x. eexists. split; [exact I|]. unfold tree in *. rewrite E. reflexivity.
    + intros x m s I E. injection E as <- _. apply Q. change (In (np_mean (map (fun t : tree => t x) f)) (map (fun x => np_mean (map (fun t : tree => t x) f)) (x0 :: X))).
      apply in_map_iff. eauto.
Qed.
Print Assumptions C114_forest.
(** With warm_start = True and scikit-learn's rule that refitting without more trees fits none, it stays with the first data. *)
Theorem C114_forest_warm_start_refuted : forall fit refit d0 ds, (forall f X Y, refit f X Y = f) ->
  rf_forest (rf_updates fit refit (new_rf true) (d0 :: ds)) = Some (fit (fst d0) (snd d0)).
Proof. exact rf_warm_stuck. Qed.
Print Assumptions C114_forest_warm_start_refuted.
(** A forest with one tree per observation, each constant. *)
Definition constant_trees (X : list pt) (Y : list R) : list tree := map (fun y _ => y) Y.
Example C114_nonvacuous_forest : let g := rf_updates constant_trees (fun f _ _ => f) (new_rf false) [([[0]], [5]); ([[0]; [1]], [1; 3])] in
  rf_predict g [7] = Some (2, 1) /\ rf_get_fmin g = Some 2.
Proof.
  assert (M : np_mean [1; 3] = 2) by (unfold np_mean, rsum_list; cbn; lra). split.
  - unfold rf_predict. cbn. unfold np_std. rewrite M. do 2 f_equal.
    replace (np_mean (map (fun p => (p - 2) * (p - 2)) [1; 3])) with 1 by (unfold np_mean, rsum_list; cbn; lra). apply sqrt_1.
  - unfold rf_get_fmin. cbn. rewrite M. unfold Rmin. destruct (Rle_dec 2 2); reflexivity.
Qed.
