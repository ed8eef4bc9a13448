(** C102: the helpers the library exports for users' own loops.  C103: the acquisition averaged over samples of the hyper-parameters.
    Specification: Spec/PlotSpec.v (least, greatest).  Model: Model/Toolbox.v. *)
From Coq Require Import List ZArith Reals Lia Lra.
From Coquelicot Require Import Coquelicot.
From Verif.Model Require Import Py Util Toolbox.
From Verif.Spec Require Import PlotSpec.
From Verif.Proof Require Import UtilP PlotP ToolboxP.
Import ListNotations.
Local Open Scope R_scope.

(** best_guess: one number for each row, the least of the values that f gives for the rows up to it. *)
Theorem C102_best_guess : forall P (f : list P -> res (list R)) (X : list P) (vals : nat -> list R),
  (forall i, (i < length X)%nat -> f (firstn (S i) X) = Ok (vals i) /\ vals i <> []) ->
  exists best, best_guess f X = Ok best /\ length best = length X /\
    forall i, (i < length X)%nat -> exists b, nth_error best i = Some b /\ least b (vals i).
Proof.
  intros P f X vals H. unfold best_guess. set (g := fun i => ff <- f (firstn (S i) X) ;; j <- argmin ff ;; Ok (nth j ff 0)).
  assert (G : forall i, (i < length X)%nat -> exists b, g i = Ok b /\ least b (vals i)).
  { intros i L. destruct (H i L) as [E N]. destruct (argmin_spec (vals i) N) as (j & A & B). exists (nth j (vals i) 0). split; [|exact B]. unfold g. rewrite E. cbn [bind]. rewrite A. reflexivity. }
  destruct (mapM_ok g (seq 0 (length X))) as (bs & E1 & E2 & E3). { intros i I. apply in_seq in I as [_ I]. destruct (G i I) as (b & B & _). eauto. }
  exists bs. split; [exact E1|]. rewrite seq_length in E2. split; [exact E2|]. intros i L. destruct (G i L) as (b & B1 & B2).
  destruct (E3 i i) as (b' & N & B3); [now rewrite nth_error_seq|]. exists b'. split; [exact N|]. assert (b' = b) as -> by congruence. exact B2.
Qed.
Print Assumptions C102_best_guess.
(** For a function of single rows the guesses never rise. *)
Theorem C102_best_guess_decreasing : forall P (g : P -> R) (X : list P) best i j a b, best_guess (fun X => Ok (map g X)) X = Ok best ->
  nth_error best i = Some a -> nth_error best j = Some b -> (i <= j)%nat -> b <= a.
Proof.
  intros P g X best i j a b E I J L.
  destruct (C102_best_guess P (fun X => Ok (map g X)) X (fun i => map g (firstn (S i) X))) as (best' & E' & LN & H).
  { intros k K. split; [reflexivity|]. destruct X; [cbn in K; lia|discriminate]. }
  assert (best' = best) as -> by congruence. assert (IL : (i < length X)%nat) by (rewrite <- LN; apply nth_error_Some; congruence).
  assert (JL : (j < length X)%nat) by (rewrite <- LN; apply nth_error_Some; congruence).
  destruct (H i IL) as (a' & A1 & A2). destruct (H j JL) as (b' & B1 & B2). assert (a' = a) as -> by congruence. assert (b' = b) as -> by congruence.
  apply B2. destruct A2 as [A2 _]. apply in_map_iff in A2 as (x & <- & A2). apply in_map. apply In_nth_error in A2 as (k & A2).
  assert (K : (k < S i)%nat). { assert (nth_error (firstn (S i) X) k <> None) by congruence. apply nth_error_Some in H0. rewrite firstn_length in H0. lia. }
  apply (nth_error_In _ k). rewrite nth_error_firstn in A2 by exact K. now rewrite nth_error_firstn by lia.
Qed.
Print Assumptions C102_best_guess_decreasing.
(** best_value: entry i is the least of the first i+1 values for sign 1, the greatest for every other sign. *)
Theorem C102_best_value : forall sign Y, length (best_value sign Y) = length Y /\
  forall i, (i < length Y)%nat -> exists b, nth_error (best_value sign Y) i = Some b /\
    (sign = 1%Z -> least b (firstn (S i) Y)) /\ (sign <> 1%Z -> greatest b (firstn (S i) Y)).
Proof.
  intros sign Y. unfold best_value. rewrite map_length, seq_length. split; [reflexivity|]. intros i L. rewrite nth_error_map, nth_error_seq by exact L.
  eexists. split; [reflexivity|]. assert (N : firstn (S i) Y <> []) by (destruct Y; [cbn in L; lia|discriminate]). cbn [plus].
  destruct (Z.eqb_spec sign 1) as [E|E]; split; intros H; try congruence; [apply lmin_spec|apply lmax_spec]; exact N.
Qed.
Print Assumptions C102_best_value.
(** reshape: a point given as a vector, or as a matrix with d entries, becomes a matrix with one row; matrices with d columns stay. *)
Theorem C102_reshape : forall d, (0 < d)%nat ->
  (forall l, length l = d -> reshape (A1 l) d = A2 [l]) /\
  (forall m, List.Forall (fun r => length r = d) m -> reshape (A2 m) d = A2 m) /\
  (forall a, reshape (A0 a) 1 = A2 [[a]]).
Proof.
  intros d D. unfold reshape. cbn [entries]. split; [|split].
  - intros l ->. now rewrite Nat.eqb_refl.
  - intros m F. assert (L : length (concat m) = (length m * d)%nat).
    { clear - F. induction F as [|r m E _ IH]; [reflexivity|]. cbn [concat]. rewrite app_length, IH, E. cbn. lia. }
    rewrite L. destruct (Nat.eqb_spec (length m * d) d) as [E|E]; [|reflexivity]. destruct m as [|r [|r' m]]; cbn [length] in *; [lia|cbn; now rewrite app_nil_r|nia].
  - reflexivity.
Qed.
Print Assumptions C102_reshape.
(** It does not turn everything into a matrix with d columns: several numbers, points of a one-dimensional space, stay a vector, and d
    points of one coordinate each are taken for one point of d coordinates. *)
Theorem C102_reshape_refuted : forall d l, length l = d -> (1 < d)%nat ->
  reshape (A1 l) 1 = A1 l /\ reshape (A2 (map (fun a => [a]) l)) d = A2 [l].
Proof.
  intros d l L D. unfold reshape. cbn [entries]. split; [destruct (Nat.eqb_spec (length l) 1); [lia|reflexivity]|].
  assert (concat (map (fun a => [a]) l) = l) as -> by (clear; induction l; cbn; congruence). rewrite L, Nat.eqb_refl. reflexivity.
Qed.
Print Assumptions C102_reshape_refuted.
(** get_moments: means as predicted, deviations whose square is the variance (zero if that is negative), the least mean at the data. *)
Theorem C102_moments : forall P (predict : P -> list R * list R) data x, fst (predict data) <> [] ->
  exists m s fmin, get_moments predict data x = Ok (m, s, fmin) /\ m = fst (predict x) /\ length s = length (snd (predict x)) /\
    least fmin (fst (predict data)) /\
    forall i v, nth_error (snd (predict x)) i = Some v -> exists d, nth_error s i = Some d /\ 0 <= d /\ (0 <= v -> d * d = v) /\ (v <= 0 -> d = 0).
Proof.
  intros P predict data x N. unfold get_moments. destruct (predict x) as [m v]. cbn [fst snd].
  assert (E : match fst (predict data) with [] => Raise ValueError | l => Ok (lmin l) end = Ok (lmin (fst (predict data)))) by (destruct (fst (predict data)); [congruence|reflexivity]).
  rewrite E. cbn [bind]. do 3 eexists. split; [reflexivity|]. split; [reflexivity|]. rewrite map_length. split; [reflexivity|]. split; [now apply lmin_spec|].
  intros i w H. rewrite nth_error_map, H. eexists. split; [reflexivity|]. split; [apply sqrt_pos|]. split; intros W.
  - rewrite Rmax_left by exact W. now apply sqrt_sqrt.
  - rewrite Rmax_right by exact W. apply sqrt_0.
Qed.
Print Assumptions C102_moments.
(** get_d_moments: where the variance is positive, the entries are the derivatives of the deviation that get_moments returns, along every
    line on which the given gradient entry is the derivative of the variance; elsewhere they are not numbers. *)
Theorem C102_moment_gradients : forall v dvdx k g, nth_error dvdx k = Some g ->
  (v <= 0 -> nth_error (get_dsdx v dvdx) k = Some None) /\
  (forall (along : R -> R) t, along t = v -> 0 < v -> is_derive along t g ->
     exists h, nth_error (get_dsdx v dvdx) k = Some (Some h) /\ is_derive (fun t => sqrt (Rmax (along t) 0)) t h).
Proof.
  intros v dvdx k g H. unfold get_dsdx. rewrite nth_error_map, H. cbn [option_map]. split; [intros W; destruct (Rlt_dec 0 v); [lra|reflexivity]|].
  intros along t A P D. destruct (Rlt_dec 0 v) as [_|]; [|lra]. eexists. split; [reflexivity|].
  apply is_derive_ext_loc with (f := fun t => sqrt (along t)).
  - assert (CO : continuous along t) by (apply (@ex_derive_continuous R_AbsRing R_NormedModule); exists g; exact D).
    assert (LC : locally t (fun y => 0 < along y)). { apply (CO (fun z => 0 < z)). rewrite A. apply (open_gt 0 v P). }
    destruct LC as (e & LC). exists e. intros y B. specialize (LC y B). rewrite Rmax_left; [reflexivity|lra].
  - replace (g / (2 * sqrt v)) with (scal g (/ (2 * sqrt (along t)))) by (rewrite A; reflexivity).
    apply (is_derive_comp sqrt along t); [|exact D].
    rewrite A. evar_last. { auto_derive; [exact P|reflexivity]. } cbn. ring.
Qed.
Print Assumptions C102_moment_gradients.
(** evaluate_function on a function with one value per row: that value in every column, of which there are as many as X has, not one; and
    the time each evaluation took. *)
Theorem C102_evaluate : forall (g : list R -> R) clock dim X, exists Y T, evaluate_function (fun x => Ok [g x]) clock dim X = Ok (Y, T) /\
  Y = map (fun x => repeat (g x) dim) X /\ length T = length X /\
  (forall i t, nth_error T i = Some t -> t = clock (2 * i + 1)%nat - clock (2 * i)%nat).
Proof.
  intros g clock dim X. unfold evaluate_function.
  assert (H : forall X k, exists Y T, evaluate_rows (fun x => Ok [g x]) dim clock k X = Ok (Y, T) /\ Y = map (fun x => repeat (g x) dim) X /\ length T = length X /\
    (forall i t, nth_error T i = Some t -> t = clock (k + 2 * i + 1)%nat - clock (k + 2 * i)%nat)).
  { clear X. induction X as [|x X IH]; intros k; cbn [evaluate_rows].
    - exists [], []. split; [reflexivity|]. split; [reflexivity|]. split; [reflexivity|]. intros [|i] t E; discriminate.
    - destruct (IH (k + 2)%nat) as (Y & T & E & EY & LT & ET). cbn [bind fill]. rewrite E. cbn [bind fst snd]. do 2 eexists. split; [reflexivity|]. split; [cbn; now rewrite EY|].
      split; [cbn; now rewrite LT|]. intros [|i] t N; cbn in N.
      + injection N as <-. f_equal; f_equal; lia.
      + rewrite (ET i t N). f_equal; f_equal; lia. }
  destruct (H X 0%nat) as (Y & T & A & B & C & D). exists Y, T. split; [exact A|]. split; [exact B|]. split; [exact C|]. intros i t N. rewrite (D i t N). reflexivity.
Qed.
Print Assumptions C102_evaluate.
(** A function whose result has neither one entry nor as many as X has columns cannot be evaluated. *)
Theorem C102_evaluate_raises : forall f clock dim x X y, f x = Ok y -> length y <> 1%nat -> length y <> dim ->
  evaluate_function f clock dim (x :: X) = Raise ValueError.
Proof.
  intros f clock dim x X y E L1 L2. unfold evaluate_function. cbn [evaluate_rows]. rewrite E. cbn [bind]. unfold fill.
  apply Nat.eqb_neq in L2. destruct y as [|a [|b y]]; cbn [length] in *; [rewrite L2; reflexivity|lia|rewrite L2; reflexivity].
Qed.
Print Assumptions C102_evaluate_raises.
Example C102_nonvacuous :
  (exists best, best_guess (fun X => Ok (map (fun x => x * x) X)) [2; -1; 3] = Ok best /\ nth_error best 2 = Some 1) /\
  (exists b, nth_error (best_value (-1) [1; 4; 2]) 2 = Some b /\ b = 4) /\
  (exists h, nth_error (get_dsdx 4 [8]) 0 = Some (Some h) /\ h = 2) /\ is_derive (fun t => t * t * t) 2 12.
Proof.
  split; [|split; [|split]].
  - destruct (C102_best_guess R (fun X => Ok (map (fun x => x * x) X)) [2; -1; 3] (fun i => map (fun x => x * x) (firstn (S i) [2; -1; 3]))) as (best & E & _ & H).
    { intros i L. split; [reflexivity|discriminate]. }
    exists best. split; [exact E|]. destruct (H 2%nat) as (b & N & I & LE); [cbn; lia|]. rewrite N. f_equal. cbn in I, LE. specialize (LE (-1 * -1)). destruct I as [<-|[<-|[<-|[]]]]; lra.
  - destruct (C102_best_value (-1) [1; 4; 2]) as [_ H]. destruct (H 2%nat) as (b & N & _ & G); [cbn; lia|]. exists b. split; [exact N|]. destruct G as [I LE]; [lia|]. cbn in I, LE. specialize (LE 4). destruct I as [<-|[<-|[<-|[]]]]; lra.
  - unfold get_dsdx. cbn [map nth_error]. destruct (Rlt_dec 0 4) as [_|]; [|lra]. eexists. split; [reflexivity|]. replace 4 with (2 * 2) by lra. rewrite sqrt_square by lra. lra.
  - auto_derive; [trivial|]. lra.
Qed.

(** With the attribute num_hmc_samples the result is the average over the first that many samples, entry by entry; the kernel is left at
    the last of them, not as it was. *)
Theorem C103_average : forall acq hmc kern ys w, ys <> [] ->
  (forall j y, nth_error ys j = Some y -> exists s, nth_error hmc j = Some s /\ length s = length kern /\ acq s = Ok y /\ length y = w) ->
  exists out, integrated acq (Some (length ys)) hmc kern = (nth (length ys - 1) hmc kern, Ok out) /\ length out = w /\
    forall k, nth k out 0 = fold_right Rplus 0 (map (fun y => nth k y 0) ys) / INR (length ys).
Proof. exact integrated_ok. Qed.
Print Assumptions C103_average.
(** The gradient returned is the gradient of the value returned. *)
Theorem C103_gradient : forall (acq : R -> list R -> res (list R)) (acq_withGradients : list R -> res (list R)) hmc kern n t, (0 < n <= length hmc)%nat ->
  (forall s, In s (firstn n hmc) -> length s = length kern /\
     exists (F : R -> R) (g : R), (forall x, acq x s = Ok [F x]) /\ acq_withGradients s = Ok [F t; g] /\ is_derive F t g) ->
  exists (value : R -> R) g, (forall x, snd (integrated (acq x) (Some n) hmc kern) = Ok [value x]) /\
    snd (integrated acq_withGradients (Some n) hmc kern) = Ok [value t; g] /\ is_derive value t g.
Proof.
  intros acq acqg hmc kern n t [N0 NL] H.
  assert (X : exists (Fs : list (R -> R)) (gs : list R), Forall2 (fun (F : R -> R) (g : R) => is_derive F t g) Fs gs /\ length Fs = n /\
    (forall x j y, nth_error (map (fun F => [F x]) Fs) j = Some y -> exists s, nth_error hmc j = Some s /\ length s = length kern /\ acq x s = Ok y /\ length y = 1%nat) /\
    (forall j y, nth_error (map (fun p => [fst p t; snd p]) (combine Fs gs)) j = Some y -> exists s, nth_error hmc j = Some s /\ length s = length kern /\ acqg s = Ok y /\ length y = 2%nat)).
  { clear N0. revert n NL H. induction hmc as [|s hmc IH]; intros n NL H.
    - cbn in NL. assert (n = 0%nat) by lia. subst n. exists [], []. split; [constructor|]. split; [reflexivity|]. split; [intros x [|j] y E; discriminate|intros [|j] y E; discriminate].
    - destruct n as [|n]; [exists [], []; split; [constructor|]; split; [reflexivity|]; split; [intros x [|j] y E; discriminate|intros [|j] y E; discriminate]|].
      destruct (H s) as (LS & F & g & E1 & E2 & D); [now left|]. destruct (IH n) as (Fs & gs & A & B & C1 & C2); [cbn in NL; lia|intros s' I; apply H; now right|].
      exists (F :: Fs), (g :: gs). split; [now constructor|]. split; [exact (f_equal S B)|]. split.
      + intros x [|j] y E; cbn in E; [injection E as <-; exists s; cbn; auto|exact (C1 x j y E)].
      + intros [|j] y E; cbn in E; [injection E as <-; exists s; cbn; auto|exact (C2 j y E)]. }
  destruct X as (Fs & gs & D & LF & C1 & C2).
  assert (LG : length gs = n) by (rewrite <- LF; clear - D; induction D; cbn; congruence).
  assert (NF : forall A (h : A -> list R) (l : list A), length l = n -> map h l <> []) by (intros A h [|a l] L; [cbn in L; lia|discriminate]).
  exists (fun x => fold_right Rplus 0 (map (fun F => F x) Fs) / INR n), (fold_right Rplus 0 gs / INR n). split; [|split].
  - intros x. destruct (C103_average (acq x) hmc kern (map (fun F => [F x]) Fs) 1%nat (NF _ _ Fs LF) (C1 x)) as (out & E & L & V). rewrite map_length, LF in E, V. rewrite E. cbn [snd].
    f_equal. destruct out as [|a [|b out]]; try discriminate L. specialize (V 0%nat). cbn [nth] in V. rewrite map_map in V. cbn [nth] in V. now rewrite V.
  - assert (LC : length (combine Fs gs) = n) by (rewrite combine_length; lia).
    destruct (C103_average acqg hmc kern (map (fun p => [fst p t; snd p]) (combine Fs gs)) 2%nat (NF _ _ _ LC) C2) as (out & E & L & V). rewrite map_length, LC in E, V. rewrite E. cbn [snd].
    f_equal. destruct out as [|a [|b [|c out]]]; try discriminate L. pose proof (V 0%nat) as V0. pose proof (V 1%nat) as V1. cbn [nth] in V0, V1. rewrite map_map in V0, V1. cbn [nth] in V0, V1.
    assert (M1 : map (fun x => fst x t) (combine Fs gs) = map (fun F => F t) Fs) by (clear - D; induction D; cbn; congruence).
    assert (M2 : map (fun x => snd x) (combine Fs gs) = gs) by (clear - D; induction D; cbn; congruence).
    rewrite M1 in V0. rewrite M2 in V1. now rewrite V0, V1.
  - apply is_derive_ext with (f := fun x => scal (/ INR n) (total (map (fun F => F x) Fs))); [intros x; unfold scal; cbn; unfold mult; cbn; unfold total, Rdiv; ring|].
    replace (fold_right Rplus 0 gs / INR n) with (scal (/ INR n) (total gs)) by (unfold scal; cbn; unfold mult; cbn; unfold total, Rdiv; ring).
    apply (is_derive_scal (fun x => total (map (fun F => F x) Fs))). now apply total_derive.
Qed.
Print Assumptions C103_gradient.
(** The model of this library has no such attribute: AttributeError, always.  Zero samples raise ZeroDivisionError, and a sample that is not
    as long as the kernel, as when it includes the variance of the noise, raises ValueError. *)
Theorem C103_library_model_refuted : forall acq hmc kern,
  integrated acq None hmc kern = (kern, Raise AttributeError) /\
  integrated acq (Some 0%nat) hmc kern = (kern, Raise ZeroDivisionError) /\
  (forall s n, length s <> length kern -> (1 < length s)%nat -> integrated acq (Some (S n)) (s :: hmc) kern = (kern, Raise ValueError)) /\
  (forall n, integrated acq (Some (S n)) [] kern = (kern, Raise IndexError)).
Proof.
  intros acq hmc kern. split; [reflexivity|]. split; [reflexivity|]. split; [|reflexivity]. intros s n L L1. unfold integrated. cbn [integrate nth_error].
  assert (assign kern s = Raise ValueError) as ->; [|reflexivity]. apply Nat.eqb_neq in L. unfold assign. destruct s as [|a [|b s]]; cbn [length] in *; [lia|lia|now rewrite L].
Qed.
Print Assumptions C103_library_model_refuted.
Example C103_nonvacuous :
  let acq := fun (x : R) (k : list R) => Ok [nth 0 k 0 * x] in let acqg := fun k => Ok [nth 0 k 0 * 3; nth 0 k 0] in
  (forall s, In s (firstn 2 [[1; 5]; [2; 6]]) -> length s = length [9; 9] /\
     exists (F : R -> R) (g : R), (forall x, acq x s = Ok [F x]) /\ acqg s = Ok [F 3; g] /\ is_derive F 3 g) /\
  (exists out, integrated acqg (Some 2%nat) [[1; 5]; [2; 6]] [9; 9] = ([2; 6], Ok out) /\ nth 1 out 0 = 3 / 2) /\ [2; 6] <> [9; 9].
Proof.
  cbv zeta. split; [|split].
  - intros s I. split; [destruct I as [<-|[<-|[]]]; reflexivity|]. exists (fun x => nth 0 s 0 * x), (nth 0 s 0). split; [reflexivity|]. split; [reflexivity|]. auto_derive; [trivial|ring].
  - destruct (C103_average (fun k => Ok [nth 0 k 0 * 3; nth 0 k 0]) [[1; 5]; [2; 6]] [9; 9] [[3; 1]; [6; 2]] 2) as (out & E & _ & V).
    + discriminate.
    + intros [|[|[|j]]] y H; cbn in H; try discriminate H; injection H as <-; eexists; (split; [reflexivity|]); (split; [reflexivity|]); (split; [|reflexivity]); cbn; do 2 f_equal; ring.
    + exists out. split; [exact E|]. rewrite V. cbn. lra.
  - intros E. injection E. lra.
Qed.
