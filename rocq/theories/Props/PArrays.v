(** C115: acquisitions asked about many locations at once answer for each location by itself. *)
From Coq Require Import Reals List Bool Arith Lia Lra Permutation Sorted.
From Verif.Model Require Import Py AcqR Arrays.
From Verif.Spec Require Import ArraysSpec.
From Verif.Proof Require Import ArraysP.
Import ListNotations.
Local Open Scope R_scope.

(** The value of EI, MPI and LCB on a matrix of any number of locations: one row for each location, with the value of the formula
    there, whatever the other rows are. *)
Theorem C115_values : forall j w M X,
  answers (compute_acq (EI j M)) X (EI_arr j M X) /\
  answers (compute_acq (MPI j M)) X (MPI_arr j M X) /\
  answers (compute_acq (LCB w M)) X (LCB_arr w M X).
Proof.
  intros. split; [|split]; eexists; (split; [|reflexivity]).
  - apply EI_rows. - apply MPI_rows. - apply LCB_rows.
Qed.
Print Assumptions C115_values.

(** The same for value and gradient. *)
Theorem C115_gradients : forall j w M d X, gradients_have M d X ->
  answers_grad d (compute_acq_withGradients (EI j M)) X (EI_arr_withGradients j M d X) /\
  answers_grad d (compute_acq_withGradients (MPI j M)) X (MPI_arr_withGradients j M d X) /\
  answers_grad d (compute_acq_withGradients (LCB w M)) X (LCB_arr_withGradients w M d X).
Proof.
  intros j w M d X H. assert (W : has_width M d X).
  { intros x I. specialize (H x I). destruct (predict_withGradients M x) as [[[m s] dm] ds]. exact (H _ _ _ _ eq_refl). }
  split; [|split]; eexists _, _; (split; [|split; reflexivity]).
  - now apply EI_grad_rows. - now apply MPI_grad_rows. - now apply LCB_grad_rows.
Qed.
Print Assumptions C115_gradients.

(** With the feasibility indicator and a cost that answers in the documented shape (n x 1, gradient n x d): one row per location. *)
Theorem C115_weighted : forall A c cx ok d X f fg, column_cost c d cx X ->
  answers (compute_acq A) X f ->
  answers (acquisition_function A c ok) X (weighted_arr f cx ok X) /\
  (answers_grad d (compute_acq_withGradients A) X fg -> (forall x, In x X -> length (snd (compute_acq_withGradients A x)) = d) ->
   answers_grad d (acquisition_function_withGradients A c ok) X (weighted_arr_withGradients fg cx ok X)).
Proof.
  intros A c cx ok d X f fg (C1 & C2 & C3) (a & F & Pa). unfold per_row, per_row_grad in *. split.
  - eexists. split; [|reflexivity]. apply weighted_rows; [now rewrite F, Pa|exact C1].
  - intros (b & bg & G & P1 & P2) L. eexists _, _. split; [|split; reflexivity]. unfold per_row, per_row_grad in *. apply weighted_grad_rows.
    + now rewrite G, P1, P2.
    + rewrite (surjective_pairing (cx X)), C1, C2. reflexivity.
    + intros x I. rewrite L, C3 by exact I. reflexivity.
Qed.
Print Assumptions C115_weighted.

(** The two costs of the library have that shape. *)
Theorem C115_costs : forall d X,
  ((forall x, In x X -> length x = d) -> column_cost constant_cost d (constant_cost_arr d) X) /\
  (forall M, gradients_have M d X -> exists p, cost_gp_arr M d X = Ok p /\ column_cost (cost_gp_withGradients M) d (fun _ => p) X).
Proof.
  intros d X. split.
  - intros L. unfold column_cost, per_row, per_row_grad. rewrite (constant_rows d X L). split; [reflexivity|]. split; [reflexivity|].
    intros x I. rewrite <- (L x I). cbn [constant_cost snd]. now rewrite map_length.
  - intros M W. eexists. split; [apply cost_gp_rows|]. unfold column_cost, per_row, per_row_grad. split; [reflexivity|]. split; [reflexivity|].
    intros x I. specialize (W x I). unfold cost_gp_withGradients. destruct (predict_withGradients M x) as [[[m s] dm] ds]. cbn [snd]. unfold vscale. rewrite map_length. now apply (W m s dm ds).
Qed.
Print Assumptions C115_costs.

(** The integrated acquisitions: one row per location, the mean over the samples there. *)
Theorem C115_integrated : forall j w gs X, gs <> [] ->
  answers (EI_MCMC j (GPModel_MCMC gs)) X (integrated (ei_sample_arr j) (map GPModel gs) X) /\
  answers (MPI_MCMC j (GPModel_MCMC gs)) X (integrated (MPI_arr j) (map GPModel gs) X) /\
  answers (LCB_MCMC w (GPModel_MCMC gs)) X (integrated (LCB_arr w) (map GPModel gs) X).
Proof. intros j w gs X NE. split; [|split]; eexists; (split; [|reflexivity]). - now apply EI_MCMC_rows. - now apply MPI_MCMC_rows. - now apply LCB_MCMC_rows. Qed.
Print Assumptions C115_integrated.

(** The locally penalised acquisition: an array of shape (n,), each entry the value at its location. *)
Theorem C115_penalised : forall t u hs U X, answers (u_value u) X (U X) ->
  penalized_arr t U hs X = Ok (V1 (map (penalized t u (match hs with Some l => l | None => [] end)) X)).
Proof. intros t u hs U X (a & E & P). apply (penalized_rows t (u_value u)); [now rewrite E, P|reflexivity]. Qed.
Print Assumptions C115_penalised.

(** Its gradient is right for one location, and for any number of locations if the transform is neither softplus nor none... *)
Theorem C115_penalised_gradient : forall t u hs U dU d X, answers (u_value u) X (U X) -> dU X = Ok (M2 d (map (u_grad u) X)) ->
  length X = 1%nat \/ t = TOther ->
  d_penalized_arr t U dU hs X = Ok (M2 d (map (d_penalized t u (match hs with Some l => l | None => [] end)) X)).
Proof.
  intros t u hs U dU d X (a & E & P) G [L| ->].
  - destruct X as [|x [|]]; try discriminate L. destruct t eqn:T; [| |now apply d_penalized_other]; (apply d_penalized_row; [discriminate|now rewrite E, P|exact G]).
  - now apply d_penalized_other.
Qed.
Print Assumptions C115_penalised_gradient.

(** ...and never otherwise, unless there is one coordinate or as many as locations: it is a ValueError... *)
Theorem C115_penalised_gradient_refuted : forall t u hs U dU d X, answers (u_value u) X (U X) -> dU X = Ok (M2 d (map (u_grad u) X)) ->
  t <> TOther -> length X <> 1%nat -> d <> 1%nat -> d <> length X ->
  d_penalized_arr t U dU hs X = Raise ValueError.
Proof. intros t u hs U dU d X (a & E & P) G T N D DN. apply (d_penalized_raises t u hs U dU d X); auto. now rewrite E, P. Qed.
Print Assumptions C115_penalised_gradient_refuted.
(** ...and with as many coordinates as locations each coordinate is scaled with the value at another location. *)
Theorem C115_penalised_gradient_mixed_refuted : exists t u U dU X a,
  answers (u_value u) X (U X) /\ dU X = Ok (M2 2 (map (u_grad u) X)) /\ length X = 2%nat /\
  d_penalized_arr t U dU None X = Ok a /\ a <> M2 2 (map (d_penalized t u []) X).
Proof.
  set (u := mk_under (fun x => - (1 + nth 0 x 0)) (fun _ => [1; 1])). set (X := [[0; 0]; [1; 0]]).
  exists TNone, u, (fun X => Ok (M2 1 (map (fun x => [u_value u x]) X))), (fun X => Ok (M2 2 (map (u_grad u) X))), X.
  eexists. split; [eexists; split; reflexivity|]. split; [reflexivity|]. split; [reflexivity|]. split.
  - apply (d_penalized_mixed TNone u); [discriminate|reflexivity|reflexivity|reflexivity|]. intros x I. reflexivity.
  - unfold matrix, X. cbn [map vzip u_value u_grad u lp_scale nth d_penalized fold_right]. intros E.
    match type of E with M2 2 ?a = M2 2 ?b => assert (K : a = b) by congruence end.
    match type of K with [[_; ?a]; _] = [[_; ?b]; _] => assert (K' : a = b) by congruence end.
    revert K'. unfold Rdiv. replace (- - (1 + 1)) with 2 by lra. replace (- - (1 + 0)) with 1 by lra. rewrite ?Rinv_1. lra.
Qed.
Print Assumptions C115_penalised_gradient_mixed_refuted.

(** The anchor points: with one score per location (the documented shape) they are different rows, as many as asked for (or all),
    and no row left out has a lower score. *)
Theorem C115_anchors : forall argsort v X a n, sorts argsort -> per_row v X a ->
  exists idx l, scored_anchors argsort X a n = Ok l /\ NoDup idx /\ length idx = Nat.min (length X) n /\
    List.Forall2 (fun i x => nth_error X i = Some x) idx l /\
    forall i j x y, In i idx -> ~ In j idx -> nth_error X i = Some x -> nth_error X j = Some y -> v x <= v y.
Proof. intros argsort v X a n S ->. now apply column_anchors. Qed.
Print Assumptions C115_anchors.

(** A cost that answers with shape (n,): right for one location... *)
Theorem C115_flat_cost_one : forall A c k cx ok x f, flat_cost k cx [x] -> (forall y, fst (c y) = k y) -> answers (compute_acq A) [x] f ->
  answers (acquisition_function A c ok) [x] (weighted_arr f cx ok [x]).
Proof. intros A c k cx ok x f C E (a & F & P). eexists. split; [|reflexivity]. apply flat_one with (k := k); auto. now rewrite F, P. Qed.
Print Assumptions C115_flat_cost_one.
(** ...and for more locations an n x n array; unless no location has a greater acquisition than the first, choosing the anchor points
    from it is an IndexError. *)
Theorem C115_flat_cost_refuted : forall A k cx ok X x0 f argsort n, flat_cost k cx X -> answers (compute_acq A) X f -> sorts argsort ->
  nth_error X 0 = Some x0 -> (forall x, In x X -> 0 < k x) -> (1 <= n)%nat ->
  (exists x, In x X /\ compute_acq A x0 * b2r (ok x0) < compute_acq A x * b2r (ok x)) ->
  exists a, weighted_arr f cx ok X = Ok a /\ a = M2 (length X) (map (fun x => map (fun y => - (compute_acq A x * b2r (ok x)) / k y) X) X) /\
    scored_anchors argsort X a n = Raise IndexError.
Proof.
  intros A k cx ok X x0 f argsort n C (a & F & P) S Z KP N E. eexists. split; [|split; [reflexivity|]].
  - apply flat_many; [now rewrite F, P|exact C].
  - now apply (flat_anchors argsort (fun x => compute_acq A x * b2r (ok x)) k X x0 n).
Qed.
Print Assumptions C115_flat_cost_refuted.

(** A case: three locations, a surrogate whose mean is the first coordinate; a sort by insertion. *)
Definition slope : model := mk_model (fun x => (nth 0 x 0, 1)) (fun x => (nth 0 x 0, 1, [1; 0], [0; 0])) 0.
Example C115_nonvacuous : gradients_have slope 2 [[0; 0]; [1; 0]; [2; 5]] /\
  LCB_arr 2 slope [[0; 0]; [1; 0]; [2; 5]] = Ok (M2 1 [[- 0 + 2 * 1]; [- 1 + 2 * 1]; [- 2 + 2 * 1]]).
Proof. split; [|reflexivity]. intros x _ m s dm ds E. cbn in E. injection E as <- <- <- <-. split; reflexivity. Qed.
Lemma slope_answers : forall X, answers (compute_acq (LCB 0 slope)) X (LCB_arr 0 slope X).
Proof. intros. apply (proj2 (proj2 (C115_values 0 0 slope X))). Qed.
Fixpoint put (s : list R) (i : nat) (l : list nat) : list nat :=
  match l with [] => [i] | j :: r => if Rle_dec (nth i s 0) (nth j s 0) then i :: l else j :: put s i r end.
Definition insertion_sort (s : list R) : list nat := fold_right (put s) [] (seq 0 (length s)).
Lemma put_perm s i l : Permutation (put s i l) (i :: l).
Proof. induction l as [|j l IH]; cbn; [easy|]. destruct Rle_dec; [easy|]. rewrite IH. apply perm_swap. Qed.
Lemma put_sorted s i l : StronglySorted (fun i j => nth i s 0 <= nth j s 0) l -> StronglySorted (fun i j => nth i s 0 <= nth j s 0) (put s i l).
Proof.
  induction 1 as [|j l S IH F]; cbn; [repeat constructor|]. destruct Rle_dec as [H|H].
  - constructor; [now constructor|]. constructor; [exact H|]. eapply Forall_impl; [|exact F]. cbv beta. intros. lra.
  - constructor; [exact IH|]. apply List.Forall_forall. intros a I. apply (Permutation_in _ (put_perm s i l)) in I. destruct I as [<-|I]; [lra|]. rewrite List.Forall_forall in F. now apply F.
Qed.
Example C115_nonvacuous_sort : sorts insertion_sort.
Proof.
  intros s. unfold insertion_sort. generalize (seq 0 (length s)). intros l. split.
  - induction l as [|i l IH]; cbn [fold_right]; [easy|]. rewrite put_perm. now constructor.
  - induction l as [|i l IH]; cbn [fold_right]; [constructor|]. now apply put_sorted.
Qed.
Example C115_nonvacuous_flat : exists X x0, flat_cost (fun _ => 1) (fun X => (V1 (map (fun _ => 1) X), Sc 0)) X /\ nth_error X 0 = Some x0 /\ length X = 2%nat /\
  exists x, In x X /\ compute_acq (LCB 0 slope) x0 * b2r true < compute_acq (LCB 0 slope) x * b2r true.
Proof.
  exists [[1]; [0]], [1]. split; [reflexivity|]. split; [reflexivity|]. split; [reflexivity|]. exists [0]. split; [now right; left|]. cbn. lra.
Qed.
