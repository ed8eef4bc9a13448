(** C99-C100: plots.  Specification: Spec/PlotSpec.v, Spec/BOSpec.v, Spec/ReportSpec.v.  Model: Model/Plot.v. *)
From Coq Require Import String List ZArith QArith Qcanon Bool Lia Reals Lra.
From Verif.Model Require Import Py Space Design Optim Objective BO Util Report Plot.
From Verif.Spec Require Import SpaceSpec BOSpec ReportSpec UtilSpec PlotSpec Examples BOExamples.
From Verif.Proof Require Import Num Dec BOMain BOMain2 ReportP UtilP PlotP.
Import ListNotations.
Local Open Scope nat_scope.
Local Open Scope string_scope.
Local Open Scope list_scope.

(** ---------------------------------------------------------------- C99 *)
(** After a run that has come to its end, plot_convergence draws one distance for each two consecutive evaluations and, for each
    evaluation, the best value up to it. *)
Theorem C99_convergence_curves : forall M fuel (E : env M) s max_iter max_time eps ctx s' o,
  e_obj E = Some o -> 1 <= o_procs o -> (forall Y, s_Y s = Some Y -> aligned (s_X s) Y) ->
  run_optimization fuel E s max_iter max_time eps ctx = (s', Some (Ok tt)) ->
  exists Y distances best, s_Y s' = Some Y /\ bo_plot_convergence s' = Ok (distances, best) /\
    length distances = length (s_X s') - 1 /\ length best = length (s_X s') /\
    (forall i x x', nth_error (s_X s') i = Some x -> nth_error (s_X s') (S i) = Some x' ->
       nth_error distances i = Some (i, distance2 x' x)) /\
    (forall i, i < length (s_X s') -> exists y, nth_error best i = Some (i, y) /\ is_min y (firstn (S i) Y)) /\
    (forall i j a b y y', nth_error best i = Some (a, y) -> nth_error best j = Some (b, y') -> i <= j -> (y' <= y)%Qc).
Proof.
  intros M fuel E s mi mt eps ctx s' o O P AL R.
  destruct (run_reports fuel E s mi mt eps ctx s' o O R) as (Y & yb & x & m & i & HY & HR & _ & _ & _ & _ & LB & MB & MO & _).
  assert (H : history E s [ORun fuel mi mt eps ctx] s') by (eexists; split; [exact R|reflexivity]).
  destruct (history_data E o O _ s s' H ltac:(discriminate)) as (new & ys & X' & Y' & L & _ & _).
  assert (LX : length Y = length (s_X s')).
  { rewrite HY in Y'. injection Y' as ->. rewrite X', !app_length, L, app_length. unfold values_so_far, pending_rows. destruct (s_Y s) as [Y0|].
    - rewrite (AL Y0 eq_refl). cbn. lia.
    - cbn. lia. }
  destruct (plot_convergence_points (s_X s') yb ltac:(congruence)) as (d & b & C & LD & LB' & D & B).
  exists Y, d, b. split; [exact HY|]. split; [unfold bo_plot_convergence; now rewrite HR|]. split; [exact LD|]. split; [exact LB'|]. split; [exact D|]. split.
  - intros k K. destruct (nth_error yb k) as [v|] eqn:V; [|apply nth_error_None in V; lia]. exists v. split; [now apply B|now apply MB].
  - intros k l a c y y' Hk Hl KL.
    assert (PT : forall k a y, nth_error b k = Some (a, y) -> nth_error yb k = Some y).
    { intros k0 a0 y0 H0. destruct (nth_error yb k0) as [v|] eqn:V; [apply B in V; congruence|]. apply nth_error_None in V.
      assert (k0 < length b) by (apply nth_error_Some; congruence). lia. }
    exact (MO k l y y' KL (PT _ _ _ Hk) (PT _ _ _ Hl)).
Qed.
Print Assumptions C99_convergence_curves.

(** Before the first finished run it raises AttributeError; it raises ValueError exactly when evaluations were added to X since. *)
Theorem C99_convergence_raises : forall M (s : st M),
  (s_report s = None -> bo_plot_convergence s = Raise AttributeError) /\
  (forall y_best x_opt fx_opt, s_report s = Some (y_best, x_opt, fx_opt) ->
     (bo_plot_convergence s = Raise ValueError <-> length y_best <> length (s_X s))).
Proof.
  intros M s. unfold bo_plot_convergence. split; [now intros ->|]. intros yb x m ->. split; [|apply plot_convergence_raise].
  intros H L. apply plot_convergence_iff in L as (c & L). congruence.
Qed.
Print Assumptions C99_convergence_raises.

(** A second run that is ended by an exception of the objective has that effect: the plot of the first run is lost. *)
Theorem C99_convergence_after_error_refuted :
  exists s1 s2 d b, run_optimization 10 (toy 1 (Some obj1_fails)) (fresh None) (LFin (z 1)) LNone q0 None = (s1, Some (Ok tt)) /\
    bo_plot_convergence s1 = Ok (d, b) /\
    run_optimization 10 (toy 1 (Some obj1_fails)) s1 (LFin (z 1)) LNone q0 None = (s2, Some (Raise (UserError 7))) /\
    bo_plot_convergence s2 = Raise ValueError.
Proof. do 4 eexists. split; [vm_compute; reflexivity|]. split; [vm_compute; reflexivity|]. split; vm_compute; reflexivity. Qed.
Print Assumptions C99_convergence_after_error_refuted.

(** However plot_acquisition ends, the data, the reported optimum and the cost model stay, and the objective is not called. *)
Theorem C99_plotting_keeps_the_data : forall M (E : env M) columns draw1 draw2 s s' r, plot_acquisition E columns draw1 draw2 s = (s', r) ->
  s_X s' = s_X s /\ s_Y s' = s_Y s /\ s_hist s' = s_hist s /\ s_cost s' = s_cost s /\ s_report s' = s_report s /\ s_cum s' = s_cum s.
Proof.
  intros M E columns d1 d2 s s' r H. destruct (plot_acquisition_frame E columns d1 d2 s s' r H) as [->|(r0 & S & _)]; [repeat split|].
  destruct (suggest_frame _ _ _ _ _ _ _ S) as (A & B & C & _ & D & F & _). repeat (split; [assumption|]).
  exact (suggest_cum _ _ _ _ _ _ _ S).
Qed.
Print Assumptions C99_plotting_keeps_the_data.

(** What is drawn depends on the number of columns of the data in the surrogate, or of a surrogate trained on X as it is when there is
    none yet: with one and with two the acquisition over the bounds of the space and the suggested locations, otherwise nothing. *)
Theorem C99_what_is_drawn : forall M (E : env M) columns draw1 draw2 s s' bounds batch d, get_bounds (e_space E) = Ok bounds ->
  suggest_next_locations E s None None None = (s', Some (Ok batch)) ->
  columns (s_model s) = Some d \/
    (columns (s_model s) = None /\ exists Y Ym m, s_Y s = Some Y /\ normalized (e_norm E) Y = Ok Ym /\ e_update E (s_model s) (s_X s) Ym = (m, None) /\ columns m = Some d) ->
  exists drawn, plot_acquisition E columns draw1 draw2 s = (s', drawn) /\
    (d = 1 -> drawn = draw1 bounds batch) /\ (d = 2 -> drawn = draw2 bounds batch) /\ (d <> 1 -> d <> 2 -> drawn = Some (Ok tt)).
Proof.
  intros M E columns draw1 draw2 s s' bounds batch d B S C. exists (if Nat.eqb d 1 then draw1 bounds batch else if Nat.eqb d 2 then draw2 bounds batch else Some (Ok tt)).
  split.
  - unfold plot_acquisition. destruct C as [C|(C & Y & Ym & m & HY & HN & HU & C')]; rewrite C.
    + rewrite B, S. reflexivity.
    + rewrite HY, HN. cbn [bind]. rewrite HU, C', B, S. reflexivity.
  - split; [intros ->; reflexivity|]. split; [intros ->; reflexivity|]. intros N1 N2. apply Nat.eqb_neq in N1, N2. now rewrite N1, N2.
Qed.
Print Assumptions C99_what_is_drawn.
(** But it asks for a suggestion, which resets the record of the run: the report of a run that used up its iterations says YES before and
    NO after the plot, and of the table of model parameters one row is left. *)
Theorem C99_plotting_undoes_completion_refuted : forall M fuel (E : env M) s max_iter max_time eps ctx s1 o u columns draw1 draw2 s2 names,
  e_obj E = Some o -> run_optimization fuel E s max_iter max_time eps ctx = (s1, Some (Ok tt)) ->
  iteration_limit max_iter max_time (nat2q (s_num s1)) -> 0 < s_num s1 -> sp_dim (e_space E) = length (kinds (e_space E)) ->
  plot_acquisition E columns draw1 draw2 s1 = (s2, Some (Ok tt)) ->
  exists w1 w2 t,
    save_report (object Bayesian u (e_space E) s1 (Some (eps, stop_conditions max_iter max_time))) = (w1, None) /\
    shows w1 "Optimization completed:" [FStr "YES"; FNat (length (s_X s1))] /\
    save_report (object Bayesian u (e_space E) s2 (Some (eps, stop_conditions max_iter max_time))) = (w2, None) /\
    shows w2 "Optimization completed:" [FStr "NO"; FNat (length (s_X s1))] /\
    save_models (s_params s2) names = Ok t /\ length (snd t) = 1.
Proof.
  intros M fuel E s mi mt eps ctx s1 o u columns d1 d2 s2 names O R IL N D P. unfold kinds in D. rewrite map_length in D.
  destruct (finished_report fuel E s mi mt eps ctx s1 o u O R D) as (b & yb & x & m & HR & W & B).
  destruct (plot_acquisition_suggests E columns d1 d2 s1 s2 P) as (bt & S).
  destruct (suggest_frame _ _ _ _ _ _ _ S) as (A1 & A2 & A3 & A4 & A5 & A6 & A7 & _ & U & _ & F). destruct (F bt eq_refl) as (Y & _ & _ & HY & _ & _ & m0 & v & _ & HP & _).
  destruct (run_reports fuel E s mi mt eps ctx s1 o O R) as (Y1 & yb1 & x1 & m1 & i & HY1 & HR1 & MIN & FM & NY & NX & _).
  assert (MI : exists i', argmin Y1 = Some i' /\ py_min Y1 = Ok m1 /\ exists x', nth_error (s_X s1) i' = Some x').
  { destruct (finished_report fuel E s mi mt eps ctx s1 o u O R D) as (_ & _ & _ & _ & _ & _ & _).
    destruct (argmin Y1) as [j|] eqn:A; [|destruct Y1; [destruct MIN as [[] _]|unfold argmin, argbest in A; discriminate]]. exists j. split; [reflexivity|].
    split. { destruct (py_min Y1) as [m'|e] eqn:PM; [f_equal; eapply is_min_unique; [apply py_min_spec, PM|exact MIN]|]. destruct Y1; [destruct MIN as [[] _]|discriminate]. }
    apply argmin_first_min in A. destruct A as (a & C1 & C2 & C3), FM as (c & C1' & C2' & C3').
    assert (a = c) by (eapply is_min_unique; eauto). subst c.
    destruct (lt_eq_lt_dec i j) as [[L|<-]|L]; [exfalso|eauto|exfalso].
    - pose proof (C3 _ _ L C1') as X. exact (Qclt_not_le _ _ X (Qcle_refl _)).
    - pose proof (C3' _ _ L C1) as X. exact (Qclt_not_le _ _ X (Qcle_refl _)). }
  destruct MI as (i' & AM & PM & x' & NX').
  assert (BT : b = true) by (apply B; exact IL). subst b.
  destruct (stop_conditions mi mt) as [q qt] eqn:SC.
  pose proof (report_bayesian u (e_space E) s2 eps q qt Y1 i' m1 x' D (eq_trans A2 HY1) AM PM (eq_trans (f_equal (fun X => nth_error X i') A1) NX')) as W2.
  exists (expected u (e_space E) s1 eps true m x), (expected u (e_space E) s2 eps false m1 x'), ("Iteration" :: names, numbered [v]).
  split; [exact W|]. split; [apply (expected_shows u (e_space E) s1 eps true m x)|]. split.
  - rewrite W2. f_equal. apply stop_limit in IL. rewrite SC in IL. cbn [fst] in IL. rewrite IL, A7.
    destruct (qceq (nat2q 0) (nat2q (s_num s1))) eqn:Q; [|reflexivity]. apply qceq_iff in Q. exfalso.
    pose proof (nat2q_lt 0 (s_num s1)) as NL. apply NL in N. rewrite <- Q in N. exact (Qclt_not_le _ _ N (Qcle_refl _)).
  - split; [|rewrite HP; split; reflexivity]. destruct (expected_shows u (e_space E) s2 eps false m1 x') as (_ & _ & SH & _). rewrite A1 in SH. exact SH.
Qed.
Print Assumptions C99_plotting_undoes_completion_refuted.

(** With three or more columns nothing is drawn, without a message; the object is changed all the same. *)
Theorem C99_three_dimensions : forall M (E : env M) columns draw1 draw2 s d bounds s1 b, columns (s_model s) = Some d -> 3 <= d ->
  get_bounds (e_space E) = Ok bounds -> suggest_next_locations E s None None None = (s1, Some (Ok b)) ->
  plot_acquisition E columns draw1 draw2 s = (s1, Some (Ok tt)).
Proof.
  intros M E columns d1 d2 s d bounds s1 b C D G S. unfold plot_acquisition. rewrite C, G, S. destruct d as [|[|[|d]]]; try lia. reflexivity.
Qed.
Print Assumptions C99_three_dimensions.

Example C99_nonvacuous :
  let E := toy 1 (Some obj1) in
  exists s1 s2 d b, run_optimization 10 E (fresh None) (LFin (z 2)) LNone q0 None = (s1, Some (Ok tt)) /\
    iteration_limit (LFin (z 2)) LNone (nat2q (s_num s1)) /\ s_num s1 = 2 /\ sp_dim (e_space E) = length (kinds (e_space E)) /\
    plot_acquisition E (fun _ => Some 1) (fun _ _ => Some (Ok tt)) (fun _ _ => None) s1 = (s2, Some (Ok tt)) /\
    plot_acquisition E (fun _ => Some 3) (fun _ _ => None) (fun _ _ => None) s1 = (s2, Some (Ok tt)) /\
    bo_plot_convergence s1 = Ok (d, b) /\ map snd d = [z 1; z 4; z 1] /\ map snd b = [z 9; z 9; z 4; z 1] /\ length (hist_rows (s_params s1)) = 3.
Proof.
  cbv zeta. do 4 eexists. split; [vm_compute; reflexivity|]. split; [left; f_equal; vmeq|].
  do 7 (split; [vm_compute; reflexivity|]). vm_compute. reflexivity.
Qed.

(** ---------------------------------------------------------------- C100 *)
Local Open Scope R_scope.
(** The acquisition is drawn upside down (the code minimises it) and scaled to [0, 1]: the smallest value is drawn at 1 and the largest at
    0, in between the order is reversed and proportions are kept. *)
Theorem C100_scaled : forall acqu lo hi, least lo acqu -> greatest hi acqu -> lo < hi ->
  exists N, acqu_normalized acqu = Ok N /\ length N = length acqu /\
    forall i a, nth_error acqu i = Some a -> exists h, nth_error N i = Some (Some h) /\ 0 <= h <= 1 /\ a = hi - h * (hi - lo).
Proof.
  intros acqu lo hi [IL LL] [IH LH] L. destruct (acqu_spec acqu) as (lo' & hi' & I1 & I2 & B & EQ). { intros ->. destruct IL. }
  assert (lo' = lo) as -> by (apply Rle_antisym; [apply B; auto|apply LL; auto]). assert (hi' = hi) as -> by (apply Rle_antisym; [apply LH; auto|apply B; auto]).
  eexists. split; [exact EQ|]. rewrite map_length. split; [reflexivity|]. intros i a NA. rewrite nth_error_map, NA. cbn [option_map].
  destruct (Req_EM_T (hi - lo) 0) as [Z|Z]; [lra|]. eexists. split; [reflexivity|]. specialize (B a (nth_error_In _ _ NA)). split.
  - split.
    + apply Rmult_le_reg_r with (hi - lo); [lra|]. unfold Rdiv. rewrite Rmult_assoc, Rinv_l by lra. lra.
    + apply Rmult_le_reg_r with (hi - lo); [lra|]. unfold Rdiv. rewrite Rmult_assoc, Rinv_l by lra. lra.
  - field. lra.
Qed.
Print Assumptions C100_scaled.
(** A constant acquisition is not drawn (0 / 0), and an empty grid raises ValueError. *)
Theorem C100_constant_refuted : forall acqu c, acqu <> [] -> (forall a, In a acqu -> a = c) ->
  acqu_normalized acqu = Ok (repeat None (length acqu)) /\ acqu_normalized [] = Raise ValueError.
Proof.
  intros acqu c NE C. split; [|reflexivity]. destruct (acqu_spec acqu NE) as (lo & hi & I1 & I2 & _ & ->). f_equal.
  rewrite (C lo I1), (C hi I2). destruct (Req_EM_T (c - c) 0) as [_|N]; [|exfalso; apply N; ring].
  clear. induction acqu; cbn; [reflexivity|]. now f_equal.
Qed.
Print Assumptions C100_constant_refuted.
(** In one dimension the curve is drawn below the model.  It is inside the limits of the axis exactly when the lower end of the band of
    the model is not above 0; if it is above a tenth of the height of the band, the curve is not visible at all. *)
Theorem C100_curve_is_visible : forall m v acqu alo ahi l h, least alo acqu -> greatest ahi acqu -> alo < ahi ->
  least l (band_low m v) -> greatest h (band_high m v) -> l <= h ->
  exists bottom top heights, plot1 m v acqu = Ok (bottom, top, heights) /\ bottom <= l /\ h <= top /\
    (inside bottom top heights <-> l <= 0) /\ ((h - l) / 10 < l -> forall y, In (Some y) heights -> y < bottom).
Proof.
  intros m v acqu alo ahi l h AL AH A [IL LL] [IH LH] LHH.
  destruct (C100_scaled acqu alo ahi AL AH A) as (N & EN & LN & HN).
  assert (EL : lmin (band_low m v) = l).
  { destruct (lmin_spec (band_low m v)) as [X Y]. { intros Z. rewrite Z in IL. destruct IL. } apply Rle_antisym; auto. }
  assert (EH : lmax (band_high m v) = h).
  { destruct (lmax_spec (band_high m v)) as [X Y]. { intros Z. rewrite Z in IH. destruct IH. } apply Rle_antisym; auto. }
  unfold plot1. rewrite EN. cbn [bind]. cbv zeta. fold (band_low m v). fold (band_high m v). rewrite EL, EH.
  eexists. eexists. eexists. split; [reflexivity|]. split; [lra|]. split; [lra|].
  assert (IN : forall y, In (Some y) (map (option_map (fun x => 2 / 10 * (h - l) * x - Rabs l - / 4 * (h - l))) N) ->
    exists x, 0 <= x <= 1 /\ y = 2 / 10 * (h - l) * x - Rabs l - / 4 * (h - l)).
  { intros y I. apply in_map_iff in I as (ox & E & I). apply In_nth_error in I as (i & I).
    destruct (nth_error acqu i) as [a|] eqn:NA; [|apply nth_error_None in NA; assert ((i < length N)%nat) by (apply nth_error_Some; congruence); lia].
    destruct (HN i a NA) as (x & NX & B & _). rewrite I in NX. injection NX as ->. cbn in E. injection E as <-. eauto. }
  split; [split|].
  - intros INS. destruct AH as [AH _]. apply In_nth_error in AH as (i & NA). destruct (HN i ahi NA) as (x & NX & B & EQ).
    assert (x = 0). { assert (x * (ahi - alo) = 0) by lra. apply Rmult_integral in H as [H|H]; lra. } subst x.
    specialize (INS (2 / 10 * (h - l) * 0 - Rabs l - / 4 * (h - l))). destruct INS as [S _].
    { apply in_map_iff. exists (Some 0). split; [reflexivity|]. eapply nth_error_In; eauto. }
    destruct (Rle_lt_dec l 0) as [|P]; [assumption|]. rewrite Rabs_right in S by lra. lra.
  - intros L0 y I. apply IN in I as (x & B & ->). rewrite Rabs_left1 by lra. assert (0 <= (h - l) * x <= h - l).
    { split; [apply Rmult_le_pos; lra|]. rewrite <- (Rmult_1_r (h - l)) at 2. apply Rmult_le_compat_l; lra. } lra.
  - intros L y I. apply IN in I as (x & B & ->). assert (0 < l) by lra. rewrite Rabs_right by lra. assert ((h - l) * x <= h - l).
    { rewrite <- (Rmult_1_r (h - l)) at 2. apply Rmult_le_compat_l; lra. } lra.
Qed.
Print Assumptions C100_curve_is_visible.
(** The grid of the plot in one dimension: from the lower end in steps of 0.001, all below the upper end, with no gap at the end. *)
Theorem C100_grid : forall lo hi i x, nth_error (arange lo hi) i = Some x <-> x = lo + INR i / 1000 /\ x < hi.
Proof.
  intros lo hi i x. unfold arange. set (n := Z.to_nat (- Int_part (- ((hi - lo) * 1000)))).
  destruct (base_Int_part (- ((hi - lo) * 1000))) as [B1 B2]. set (k := Int_part (- ((hi - lo) * 1000))) in *. rewrite nth_error_map.
  destruct (Nat.lt_ge_cases i n) as [L|L].
  - rewrite nth_error_seq by exact L. cbn [option_map plus].
    assert (NK : (Z.of_nat n = - k)%Z) by (unfold n in *; lia). assert (RK : INR n = - IZR k) by (rewrite INR_IZR_INZ, NK, opp_IZR; reflexivity).
    assert (IN : INR i + 1 <= INR n) by (rewrite <- S_INR; apply le_INR; lia).
    split; [intros E; injection E as <-; split; unfold Rdiv; lra|intros [-> _]; reflexivity].
  - assert (LN : length (seq 0 n) = n) by apply seq_length. replace (nth_error (seq 0 n) i) with (@None nat) by (symmetry; apply nth_error_None; lia).
    split; [discriminate|]. intros [-> H]. exfalso. apply le_INR in L.
    assert (NK : (- k <= Z.of_nat n)%Z) by (unfold n; lia). apply IZR_le in NK. rewrite opp_IZR, <- INR_IZR_INZ in NK. lra.
Qed.
Print Assumptions C100_grid.
(** In two dimensions the height drawn in column j of row i is that of the acquisition at the j-th value of the first and the i-th value of
    the second coordinate. *)
Theorem C100_contour : forall acq b1 b2 lo hi, lo < hi ->
  (forall i j, (i < 200)%nat -> (j < 200)%nat -> lo <= acq (tick b1 j, tick b2 i) <= hi) ->
  (exists i j, (i < 200)%nat /\ (j < 200)%nat /\ acq (tick b1 j, tick b2 i) = lo) ->
  (exists i j, (i < 200)%nat /\ (j < 200)%nat /\ acq (tick b1 j, tick b2 i) = hi) ->
  exists Z, contour acq b1 b2 = Ok Z /\ length Z = 200%nat /\ forall i j, (i < 200)%nat -> (j < 200)%nat ->
    exists row h, nth_error Z i = Some row /\ length row = 200%nat /\ nth_error row j = Some (Some h) /\ 0 <= h <= 1 /\
      acq (tick b1 j, tick b2 i) = hi - h * (hi - lo).
Proof.
  intros acq b1 b2 lo hi L B (i0 & j0 & I0 & J0 & E0) (i1 & j1 & I1 & J1 & E1). unfold contour.
  pose proof (linspace200_length (fst b1) (snd b1)) as LL1. pose proof (linspace200_length (fst b2) (snd b2)) as LL2.
  pose proof (linspace200_nth (fst b1) (snd b1)) as N1. pose proof (linspace200_nth (fst b2) (snd b2)) as N2.
  fold (tick b1) in N1. fold (tick b2) in N2.
  revert LL1 LL2 N1 N2 B I0 J0 I1 J1. generalize (linspace200 (fst b1) (snd b1)) (linspace200 (fst b2) (snd b2)). generalize 200%nat.
  intros n l1 l2 LL1 LL2 N1 N2 B I0 J0 I1 J1.
  assert (P : forall i j, (i < n)%nat -> (j < n)%nat -> In (acq (tick b1 j, tick b2 i)) (map acq (mesh l1 l2))).
  { intros i j I J. apply (nth_error_In _ (i * length l1 + j)). rewrite nth_error_map. rewrite (mesh_nth l1 l2 i j (tick b1 j) (tick b2 i)); [reflexivity|now apply N1|now apply N2]. }
  assert (Q : forall a, In a (map acq (mesh l1 l2)) -> lo <= a <= hi).
  { intros a IA. apply in_map_iff in IA as ((x, y) & <- & IA). unfold mesh in IA. apply in_flat_map in IA as (y' & IY & IA).
    apply in_map_iff in IA as (x' & EQ & IX). injection EQ as -> ->. apply In_nth_error in IX as (j & IX), IY as (i & IY).
    assert (J : (j < n)%nat) by (rewrite <- LL1; apply nth_error_Some; congruence). assert (I : (i < n)%nat) by (rewrite <- LL2; apply nth_error_Some; congruence).
    rewrite N1 in IX by exact J. rewrite N2 in IY by exact I. injection IX as <-. injection IY as <-. now apply B. }
  destruct (C100_scaled (map acq (mesh l1 l2)) lo hi) as (N & EN & LN & HN); [split; [rewrite <- E0; auto|intros y IY; now apply Q]|split; [rewrite <- E1; auto|intros y IY; now apply Q]|exact L|].
  rewrite EN. cbn [bind]. eexists. split; [reflexivity|]. destruct (contour_gen n l1 l2 acq lo hi N LL1 LL2 LN HN) as [A1 A2].
  split; [exact A1|]. intros i j I J. apply (A2 i j (tick b1 j) (tick b2 i)); [now apply N1|now apply N2].
Qed.
Print Assumptions C100_contour.

Example C100_nonvacuous : exists bottom top heights,
  least (-3) [-1; -3; -2] /\ greatest (-1) [-1; -3; -2] /\ least (-2) (band_low [0; 1; -2] [0; 0; 0]) /\ greatest 1 (band_high [0; 1; -2] [0; 0; 0]) /\
  plot1 [0; 1; -2] [0; 0; 0] [-1; -3; -2] = Ok (bottom, top, heights) /\ inside bottom top heights /\
  In (Some (-2 - 3 / 4)) heights /\ In (Some (-2 - 3 / 4 + 6 / 10)) heights /\ nth_error (arange 0 1) 1 = Some (1 / 1000).
Proof.
  assert (A1 : least (-3) [-1; -3; -2]) by (split; [cbn; auto|]; intros y [<-|[<-|[<-|[]]]]; lra).
  assert (A2 : greatest (-1) [-1; -3; -2]) by (split; [cbn; auto|]; intros y [<-|[<-|[<-|[]]]]; lra).
  assert (S0 : forall a, a - 196 / 100 * sqrt 0 = a) by (intros; rewrite sqrt_0; lra).
  assert (S1 : forall a, a + 196 / 100 * sqrt 0 = a) by (intros; rewrite sqrt_0; lra).
  assert (B1 : least (-2) (band_low [0; 1; -2] [0; 0; 0])).
  { unfold band_low. cbn [combine map fst snd]. rewrite !S0. split; [cbn; auto|]; intros y [<-|[<-|[<-|[]]]]; lra. }
  assert (B2 : greatest 1 (band_high [0; 1; -2] [0; 0; 0])).
  { unfold band_high. cbn [combine map fst snd]. rewrite !S1. split; [cbn; auto|]; intros y [<-|[<-|[<-|[]]]]; lra. }
  destruct (C100_curve_is_visible [0; 1; -2] [0; 0; 0] [-1; -3; -2] (-3) (-1) (-2) 1 A1 A2 ltac:(lra) B1 B2 ltac:(lra)) as (b & t & h & P & _ & _ & V & _).
  exists b, t, h. split; [exact A1|]. split; [exact A2|]. split; [exact B1|]. split; [exact B2|]. split; [exact P|]. split; [apply V; lra|].
  destruct (C100_scaled [-1; -3; -2] (-3) (-1) A1 A2 ltac:(lra)) as (N & EN & _ & HN). unfold plot1 in P. rewrite EN in P. cbn [bind] in P.
  assert (LM : lmin (map (fun p => fst p - 196 / 100 * sqrt (snd p)) (combine [0; 1; -2] [0; 0; 0])) = -2).
  { destruct (lmin_spec (band_low [0; 1; -2] [0; 0; 0])) as [X Y]; [discriminate|]. destruct B1. apply Rle_antisym; auto. }
  assert (LX : lmax (map (fun p => fst p + 196 / 100 * sqrt (snd p)) (combine [0; 1; -2] [0; 0; 0])) = 1).
  { destruct (lmax_spec (band_high [0; 1; -2] [0; 0; 0])) as [X Y]; [discriminate|]. destruct B2. apply Rle_antisym; auto. }
  cbv zeta in P. rewrite LM, LX in P. apply Ok_inj in P. apply (f_equal snd) in P. cbn [snd] in P. subst h. rewrite Rabs_left by lra. split; [|split].
  - destruct (HN 0%nat (-1) eq_refl) as (x & NX & _ & EQ). assert (x = 0) by lra. subst x. apply in_map_iff. exists (Some 0). split; [cbn; f_equal; lra|]. eapply nth_error_In; eauto.
  - destruct (HN 1%nat (-3) eq_refl) as (x & NX & _ & EQ). assert (x = 1) by lra. subst x. apply in_map_iff. exists (Some 1). split; [cbn; f_equal; lra|]. eapply nth_error_In; eauto.
  - apply C100_grid. cbn [INR]. lra.
Qed.
(** A contour: the sum of the coordinates on the unit square. *)
Example C100_nonvacuous_contour : let acq := fun p => fst p + snd p in
  (forall i j, (i < 200)%nat -> (j < 200)%nat -> 0 <= acq (tick (0, 1) j, tick (0, 1) i) <= 2) /\
  (exists i j, (i < 200)%nat /\ (j < 200)%nat /\ acq (tick (0, 1) j, tick (0, 1) i) = 0) /\
  (exists i j, (i < 200)%nat /\ (j < 200)%nat /\ acq (tick (0, 1) j, tick (0, 1) i) = 2).
Proof.
  cbv zeta. unfold tick. cbn [fst snd]. assert (B : forall k, (k < 200)%nat -> 0 <= INR k <= 199).
  { intros k K. split; [apply pos_INR|]. replace 199 with (INR 199) by (rewrite INR_IZR_INZ; reflexivity). apply le_INR. lia. }
  split; [|split].
  - intros i j I J. apply B in I, J. lra.
  - exists 0%nat, 0%nat. split; [lia|]. split; [lia|]. cbn [INR]. lra.
  - exists 199%nat, 199%nat. split; [lia|]. split; [lia|]. rewrite INR_IZR_INZ. change (IZR (Z.of_nat 199)) with 199. lra.
Qed.
