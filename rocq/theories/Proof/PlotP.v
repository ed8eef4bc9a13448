(** Facts about the plots (Model/Plot.v). *)
From Coq Require Import String List ZArith QArith Qcanon Bool Lia Reals Lra.
From Verif.Model Require Import Py Space Design Optim Objective BO Util Report Plot.
From Verif.Spec Require Import SpaceSpec BOSpec ReportSpec UtilSpec.
From Verif.Proof Require Import BOMain BOMain2 ReportP UtilP.
Import ListNotations.
Local Open Scope nat_scope.

Lemma curve_ok xs ys : length xs = length ys -> curve xs ys = Ok (combine xs ys).
Proof. intros H. unfold curve. rewrite H, Nat.eqb_refl. reflexivity. Qed.
Lemma nth_error_skipn {A} (l : list A) : forall n i, nth_error (skipn n l) i = nth_error l (n + i).
Proof. induction l as [|a l IH]; intros [|n] i; cbn; auto. now destruct i. Qed.
Lemma nth_error_firstn {A} (l : list A) : forall n i, i < n -> nth_error (firstn n l) i = nth_error l i.
Proof. induction l as [|a l IH]; intros [|n] [|i] H; cbn; try lia; auto. apply IH. lia. Qed.
Lemma nth_error_seq s n i : i < n -> nth_error (seq s n) i = Some (s + i).
Proof. revert s i; induction n as [|n IH]; intros s i H; [lia|]. destruct i; cbn; [now rewrite Nat.add_0_r|]. rewrite IH by lia. f_equal. lia. Qed.

Lemma plot_convergence_iff X yb : (exists c, plot_convergence X yb = Ok c) <-> length yb = length X.
Proof.
  unfold plot_convergence. rewrite curve_ok.
  2:{ rewrite seq_length, map_length, combine_length, skipn_length, firstn_length. lia. }
  cbn [bind]. unfold curve. rewrite seq_length. destruct (Nat.eqb_spec (length X) (length yb)); cbn [bind]; split; intros H; try congruence.
  - eexists. reflexivity.
  - destruct H. discriminate.
Qed.
Lemma plot_convergence_raise X yb : length yb <> length X -> plot_convergence X yb = Raise ValueError.
Proof.
  intros N. unfold plot_convergence. rewrite curve_ok.
  2:{ rewrite seq_length, map_length, combine_length, skipn_length, firstn_length. lia. }
  cbn [bind]. unfold curve. rewrite seq_length. destruct (Nat.eqb_spec (length X) (length yb)); [congruence|reflexivity].
Qed.
Lemma plot_convergence_points X yb : length yb = length X -> exists d b, plot_convergence X yb = Ok (d, b) /\
  length d = length X - 1 /\ length b = length X /\
  (forall i x y, nth_error X i = Some x -> nth_error X (S i) = Some y -> nth_error d i = Some (i, sqdist y x)) /\
  (forall i v, nth_error yb i = Some v -> nth_error b i = Some (i, v)).
Proof.
  intros L. unfold plot_convergence. rewrite curve_ok.
  2:{ rewrite seq_length, map_length, combine_length, skipn_length, firstn_length. lia. }
  rewrite curve_ok by now rewrite seq_length. cbn [bind]. eexists. eexists. split; [reflexivity|].
  rewrite !combine_length, !seq_length, map_length, combine_length, skipn_length, firstn_length. split; [lia|]. split; [lia|]. split.
  - intros i x y X0 X1. assert (i < length X - 1) by (assert (S i < length X) by (apply nth_error_Some; congruence); lia).
    apply combine_nth_error; [rewrite nth_error_seq by auto; reflexivity|].
    rewrite nth_error_map. rewrite combine_nth_error with (x := y) (y := x); [reflexivity| |].
    + rewrite nth_error_skipn. exact X1.
    + rewrite nth_error_firstn by auto. exact X0.
  - intros i v V. apply combine_nth_error; [|exact V]. rewrite nth_error_seq; [reflexivity|]. rewrite <- L. apply nth_error_Some. congruence.
Qed.

Section Object.
Context {M : Type}.
Lemma plot_acquisition_frame (E : env M) columns d1 d2 s s' r : plot_acquisition E columns d1 d2 s = (s', r) ->
  s' = s \/ exists r0, suggest_next_locations E s None None None = (s', r0) /\ (r = Some (Ok tt) -> exists b, r0 = Some (Ok b)).
Proof.
  unfold plot_acquisition. destruct (match columns (s_model s) with Some d => Ok d | None => _ end) as [d|e]; [|intros H; left; congruence].
  destruct (get_bounds (e_space E)) as [bs|e]; [|intros H; left; congruence].
  destruct (suggest_next_locations E s None None None) as [s1 [[b|e]|]] eqn:S; intros H; right; injection H as <- <-; eexists; (split; [reflexivity|]); intros X; try discriminate.
  eexists. reflexivity.
Qed.
Lemma plot_acquisition_suggests (E : env M) columns d1 d2 s s' : plot_acquisition E columns d1 d2 s = (s', Some (Ok tt)) ->
  exists b, suggest_next_locations E s None None None = (s', Some (Ok b)).
Proof.
  unfold plot_acquisition. destruct (match columns (s_model s) with Some d => Ok d | None => _ end) as [d|e]; [|discriminate].
  destruct (get_bounds (e_space E)) as [bs|e]; [|discriminate].
  destruct (suggest_next_locations E s None None None) as [s1 [[b|e]|]] eqn:S; intros H; try discriminate. injection H as <- _. eauto.
Qed.
Lemma save_params_cum (E : env M) s s' r : save_params E s = (s', r) -> s_cum s' = s_cum s.
Proof.
  unfold save_params. destruct (e_params E (s_model s)) as [p|]; [destruct (s_params s) as [H|]; [destruct (vstack H [p])|]|]; intros X; injection X as <- _; reflexivity.
Qed.
Lemma update_model_cum (E : env M) s s' r : update_model E s = (s', r) -> s_cum s' = s_cum s.
Proof.
  unfold update_model. destruct (Z.eqb _ 0); [intros X; injection X as <- _; reflexivity|]. destruct (Z.eqb _ 0); [|apply save_params_cum].
  destruct (unzip_inputs _ _); [|intros X; injection X as <- _; reflexivity]. destruct (s_Y s) as [Y|]; [|intros X; injection X as <- _; reflexivity].
  destruct (normalized _ _); [|intros X; injection X as <- _; reflexivity]. cbv zeta. destruct (e_update _ _ _ _) as [m [e|]].
  - intros X. injection X as <- _. reflexivity.
  - intros X. apply save_params_cum in X. exact X.
Qed.
Lemma suggest_cum (E : env M) s ctx p i s' r : suggest_next_locations E s ctx p i = (s', r) -> s_cum s' = s_cum s.
Proof.
  unfold suggest_next_locations. destruct (update_model _ _) as [s1 [u|e]] eqn:U; apply update_model_cum in U; cbn in U; [|intros X; injection X as <- _; exact U].
  unfold compute_next_evaluations. destruct (context_manager _ _); [|intros X; injection X as <- _; exact U]. destruct (e_batch _ _ _ _) as [m r0]. intros X. injection X as <- _. exact U.
Qed.
End Object.

(** ---- the acquisition curve *)
Local Open Scope R_scope.
Lemma acqu_spec acqu : acqu <> [] -> exists lo hi, In lo acqu /\ In hi acqu /\ (forall a, In a acqu -> lo <= a <= hi) /\
  acqu_normalized acqu = Ok (map (fun a => if Req_EM_T (hi - lo) 0 then None else Some ((hi - a) / (hi - lo))) acqu).
Proof.
  intros NE. destruct (lmin_spec (map Ropp acqu)) as [MI ML]. { destruct acqu; [congruence|discriminate]. }
  set (L := lmin (map Ropp acqu)) in *. destruct (lmax_spec (map (fun a => - a - L) acqu)) as [XI XL]. { destruct acqu; [congruence|discriminate]. }
  apply in_map_iff in MI as (hi & EH & IH). apply in_map_iff in XI as (lo & EL & IL). exists lo, hi. split; [auto|]. split; [auto|]. split.
  - intros a IA. split.
    + assert (- a - L <= - lo - L); [|lra]. rewrite EL. apply XL. apply in_map_iff. eauto.
    + assert (L <= - a); [|lra]. apply ML. apply in_map_iff. eauto.
  - unfold acqu_normalized. destruct acqu as [|a0 l]; [congruence|]. cbv zeta. fold L. rewrite <- EL. f_equal. rewrite map_map. apply map_ext. intros a.
    replace (- lo - L) with (hi - lo) by lra. destruct (Req_EM_T (hi - lo) 0); [reflexivity|]. f_equal. f_equal. lra.
Qed.
Lemma reshape_nth {A} n : forall rows (l : list A) i j, (i < rows)%nat -> (j < n)%nat ->
  (exists r, nth_error (reshape rows n l) i = Some r /\ nth_error r j = nth_error l (i * n + j)%nat).
Proof.
  induction rows as [|rows IH]; intros l i j Hi Hj; [lia|]. destruct i as [|i]; cbn [reshape nth_error].
  - exists (firstn n l). split; [reflexivity|]. rewrite nth_error_firstn by auto. reflexivity.
  - destruct (IH (skipn n l) i j ltac:(lia) Hj) as (r & E1 & E2). exists r. split; [exact E1|]. rewrite E2, nth_error_skipn. f_equal. lia.
Qed.
Lemma mesh_nth X1 X2 : forall i j a b, nth_error X1 j = Some a -> nth_error X2 i = Some b ->
  nth_error (mesh X1 X2) (i * length X1 + j) = Some (a, b).
Proof.
  intros i j a b HA. revert i. unfold mesh. induction X2 as [|c X2 IH]; intros i HB; [destruct i; discriminate|].
  assert (J : (j < length X1)%nat) by (apply nth_error_Some; congruence). cbn [flat_map]. destruct i as [|i]; cbn in HB.
  - injection HB as ->. rewrite nth_error_app1 by (rewrite map_length; lia). rewrite Nat.mul_0_l, Nat.add_0_l, nth_error_map, HA. reflexivity.
  - rewrite nth_error_app2 by (rewrite map_length; lia). rewrite map_length. replace (S i * length X1 + j - length X1)%nat with (i * length X1 + j)%nat by lia. now apply IH.
Qed.
Lemma linspace200_nth lo hi i : (i < 200)%nat -> nth_error (linspace200 lo hi) i = Some (lo + INR i * ((hi - lo) / 199)).
Proof. intros H. unfold linspace200. rewrite nth_error_map, nth_error_seq by auto. reflexivity. Qed.
Lemma linspace200_length lo hi : length (linspace200 lo hi) = 200%nat.
Proof. unfold linspace200. now rewrite map_length, seq_length. Qed.
Lemma Ok_inj {A} (a b : A) : Ok a = Ok b -> a = b.
Proof. intros H. injection H as H. exact H. Qed.
Lemma mesh_length X1 X2 : length (mesh X1 X2) = (length X2 * length X1)%nat.
Proof. unfold mesh. induction X2 as [|b X2 IH]; [reflexivity|]. cbn [flat_map length]. rewrite app_length, map_length, IH. lia. Qed.
Lemma reshape_rows {A} n : forall rows (l : list A), length l = (rows * n)%nat -> length (reshape rows n l) = rows /\ List.Forall (fun r => length r = n) (reshape rows n l).
Proof.
  induction rows as [|rows IH]; intros l L; cbn [reshape length]; [split; constructor|].
  destruct (IH (skipn n l)) as [A1 A2]. { rewrite skipn_length. lia. } split; [now rewrite A1|]. constructor; [rewrite firstn_length; lia|exact A2].
Qed.
Lemma contour_gen n X1 X2 acq (lo hi : R) N : length X1 = n -> length X2 = n -> length N = length (map acq (mesh X1 X2)) ->
  (forall i a, nth_error (map acq (mesh X1 X2)) i = Some a -> exists h, nth_error N i = Some (Some h) /\ 0 <= h <= 1 /\ a = hi - h * (hi - lo)) ->
  length (reshape n n N) = n /\ forall i j x y, nth_error X1 j = Some x -> nth_error X2 i = Some y ->
    exists row h, nth_error (reshape n n N) i = Some row /\ length row = n /\ nth_error row j = Some (Some h) /\ 0 <= h <= 1 /\ acq (x, y) = hi - h * (hi - lo).
Proof.
  intros L1 L2 LN H. rewrite map_length, mesh_length, L1, L2 in LN. destruct (reshape_rows n n N LN) as [R1 R2]. split; [exact R1|].
  intros i j x y HX HY. assert (J : (j < n)%nat) by (rewrite <- L1; apply nth_error_Some; congruence). assert (I : (i < n)%nat) by (rewrite <- L2; apply nth_error_Some; congruence).
  destruct (reshape_nth n n N i j I J) as (row & E1 & E2). pose proof (mesh_nth X1 X2 i j x y HX HY) as MN. rewrite L1 in MN.
  destruct (H (i * n + j)%nat (acq (x, y))) as (h & H1 & H2 & H3). { rewrite nth_error_map, MN. reflexivity. }
  exists row, h. split; [exact E1|]. split; [rewrite Forall_forall in R2; exact (R2 row (nth_error_In _ _ E1))|]. split; [now rewrite E2, H1|]. auto.
Qed.
