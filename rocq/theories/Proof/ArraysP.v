(** Acquisitions on arrays. *)
From Coq Require Import Reals List Bool Arith Lia Lra.
From Verif.Model Require Import Py Constraints AcqR Arrays.
From Verif.Proof Require Import Num ConstraintsP.
Import ListNotations.
Local Open Scope R_scope.

Lemma pairs_l {A B} (a : A) (l : list B) : pairs [a] l = Ok (map (fun b => (a, b)) l).
Proof. unfold pairs. destruct l as [|b [|c l]]; reflexivity. Qed.
Lemma pairs_r {A B} (l : list A) (b : B) : pairs l [b] = Ok (map (fun a => (a, b)) l).
Proof. unfold pairs. destruct l as [|a [|c l]]; reflexivity. Qed.
Lemma pairs_map {A B C} (f : C -> A) (h : C -> B) l : pairs (map f l) (map h l) = Ok (map (fun c => (f c, h c)) l).
Proof. rewrite pairs_same by now rewrite !map_length. f_equal. induction l as [|c l IH]; cbn; [reflexivity|]. now rewrite IH. Qed.
Lemma combine_vzip (g : R -> R -> R) : forall a b : pt, map (fun p => g (fst p) (snd p)) (combine a b) = vzip g a b.
Proof. induction a as [|x a IH]; intros [|y b]; cbn; try reflexivity. now rewrite IH. Qed.
Lemma pairs_vzip (g : R -> R -> R) (a b : pt) : length a = length b -> (ps <- pairs a b ;; Ok (map (fun p => g (fst p) (snd p)) ps)) = Ok (vzip g a b).
Proof. intros H. rewrite pairs_same by exact H. cbn [bind]. now rewrite combine_vzip. Qed.
Lemma pairs_const_r (g : R -> R -> R) (a : pt) (c : R) : (ps <- pairs a [c] ;; Ok (map (fun p => g (fst p) (snd p)) ps)) = Ok (map (fun v => g v c) a).
Proof. rewrite pairs_r. cbn [bind]. now rewrite map_map. Qed.
Lemma pairs_const_l (g : R -> R -> R) (c : R) (a : pt) : (ps <- pairs [c] a ;; Ok (map (fun p => g (fst p) (snd p)) ps)) = Ok (map (g c) a).
Proof. rewrite pairs_l. cbn [bind]. now rewrite map_map. Qed.

Section B.
Variable g : R -> R -> R.
Lemma rows_ok {A} (L : list A) (P Q S : A -> pt) : (forall x, In x L -> (ps <- pairs (P x) (Q x) ;; Ok (map (fun p => g (fst p) (snd p)) ps)) = Ok (S x)) ->
  mapM (fun r => ps <- pairs (fst r) (snd r) ;; Ok (map (fun p => g (fst p) (snd p)) ps)) (map (fun x => (P x, Q x)) L) = Ok (map S L).
Proof.
  induction L as [|x L IH]; intros H; [reflexivity|]. cbn [map mapM fst snd]. rewrite (H x (or_introl eq_refl)). cbn [bind].
  rewrite IH by (intros y Y; apply H; now right). reflexivity.
Qed.
Lemma bin_cc f h X : bin g (column f X) (column h X) = Ok (column (fun x => g (f x) (h x)) X).
Proof.
  unfold bin, column. cbn [as_matrix ndim Nat.max]. rewrite common_same. cbn [bind]. rewrite pairs_map. cbn [bind].
  rewrite (rows_ok X _ _ (fun x => [g (f x) (h x)])) by (intros; reflexivity). reflexivity.
Qed.
Lemma bin_sc c f X : bin g (Sc c) (column f X) = Ok (column (fun x => g c (f x)) X).
Proof.
  unfold bin, column. cbn [as_matrix ndim Nat.max]. rewrite common_same. cbn [bind]. rewrite pairs_l. cbn [bind]. rewrite map_map.
  rewrite (rows_ok X _ _ (fun x => [g c (f x)])) by (intros; reflexivity). reflexivity.
Qed.
Lemma bin_cs c f X : bin g (column f X) (Sc c) = Ok (column (fun x => g (f x) c) X).
Proof.
  unfold bin, column. cbn [as_matrix ndim Nat.max]. rewrite common_same. cbn [bind]. rewrite pairs_r. cbn [bind]. rewrite map_map.
  rewrite (rows_ok X _ _ (fun x => [g (f x) c])) by (intros; reflexivity). reflexivity.
Qed.
Lemma bin_mc d F f X : bin g (matrix d F X) (column f X) = Ok (matrix d (fun x => map (fun v => g v (f x)) (F x)) X).
Proof.
  unfold bin, column, matrix. cbn [as_matrix ndim Nat.max]. rewrite common_1_r. cbn [bind]. rewrite pairs_map. cbn [bind].
  rewrite (rows_ok X _ _ (fun x => map (fun v => g v (f x)) (F x))) by (intros; apply pairs_const_r). reflexivity.
Qed.
Lemma bin_cm d F f X : bin g (column f X) (matrix d F X) = Ok (matrix d (fun x => map (g (f x)) (F x)) X).
Proof.
  unfold bin, column, matrix. cbn [as_matrix ndim Nat.max]. rewrite common_1_l. cbn [bind]. rewrite pairs_map. cbn [bind].
  rewrite (rows_ok X _ _ (fun x => map (g (f x)) (F x))) by (intros; apply pairs_const_l). reflexivity.
Qed.
Lemma bin_sm d F c X : bin g (Sc c) (matrix d F X) = Ok (matrix d (fun x => map (g c) (F x)) X).
Proof.
  unfold bin, matrix. cbn [as_matrix ndim Nat.max]. rewrite common_1_l. cbn [bind]. rewrite pairs_l. cbn [bind]. rewrite map_map.
  rewrite (rows_ok X _ _ (fun x => map (g c) (F x))) by (intros; apply pairs_const_l). reflexivity.
Qed.
Lemma bin_mm d F H X : (forall x, In x X -> length (F x) = length (H x)) -> bin g (matrix d F X) (matrix d H X) = Ok (matrix d (fun x => vzip g (F x) (H x)) X).
Proof.
  intros L. unfold bin, matrix. cbn [as_matrix ndim Nat.max]. rewrite common_same. cbn [bind]. rewrite pairs_map. cbn [bind].
  rewrite (rows_ok X _ _ (fun x => vzip g (F x) (H x))) by (intros; now apply pairs_vzip, L). reflexivity.
Qed.
Lemma bin_mv d F r X : length r = d -> (forall x, In x X -> length (F x) = d) -> bin g (matrix d F X) (V1 r) = Ok (matrix d (fun x => vzip g (F x) r) X).
Proof.
  intros R L. unfold bin, matrix. cbn [as_matrix ndim Nat.max]. rewrite R, common_same. cbn [bind]. rewrite pairs_r. cbn [bind]. rewrite map_map.
  rewrite (rows_ok X _ _ (fun x => vzip g (F x) r)) by (intros; apply pairs_vzip; rewrite L; auto). reflexivity.
Qed.
Lemma bin_vm d F r X : length r = d -> (forall x, In x X -> length (F x) = d) -> bin g (V1 r) (matrix d F X) = Ok (matrix d (fun x => vzip g r (F x)) X).
Proof.
  intros R L. unfold bin, matrix. cbn [as_matrix ndim Nat.max]. rewrite R, common_same. cbn [bind]. rewrite pairs_l. cbn [bind]. rewrite map_map.
  rewrite (rows_ok X _ _ (fun x => vzip g r (F x))) by (intros; apply pairs_vzip; rewrite L; auto). reflexivity.
Qed.
Lemma bin_vv f h (X : list pt) : bin g (V1 (map f X)) (V1 (map h X)) = Ok (V1 (map (fun x => g (f x) (h x)) X)).
Proof.
  unfold bin. cbn [as_matrix ndim Nat.max]. rewrite !map_length, common_same. cbn [bind]. rewrite pairs_l. cbn [bind map mapM fst snd]. rewrite pairs_map. cbn [bind]. now rewrite map_map.
Qed.
(** A column with an array of shape (n,): an n x n array. *)
Lemma bin_cv f (l : list R) X : bin g (column f X) (V1 l) = Ok (M2 (length l) (map (fun x => map (g (f x)) l) X)).
Proof.
  unfold bin, column. cbn [as_matrix ndim Nat.max]. rewrite common_1_l. cbn [bind]. rewrite pairs_r. cbn [bind]. rewrite map_map.
  rewrite (rows_ok X _ _ (fun x => map (g (f x)) l)) by (intros; apply pairs_const_l). reflexivity.
Qed.
End B.
Lemma un_c h f X : un h (column f X) = column (fun x => h (f x)) X.
Proof. unfold column. cbn [un]. now rewrite map_map. Qed.
Lemma un_m h d F X : un h (matrix d F X) = matrix d (fun x => map h (F x)) X.
Proof. unfold matrix. cbn [un]. now rewrite map_map. Qed.
Lemma column_ext f h X : (forall x, In x X -> f x = h x) -> column f X = column h X.
Proof. intros H. unfold column. f_equal. apply map_ext_in. intros x I. now rewrite H. Qed.
Lemma matrix_ext d f h X : (forall x, In x X -> f x = h x) -> matrix d f X = matrix d h X.
Proof. intros H. unfold matrix. f_equal. apply map_ext_in. exact H. Qed.

(** Quantiles. *)
Definition q_phi par fmin m s : R := fst (fst (fst (get_quantiles par fmin m s))).
Definition q_Phi par fmin m s : R := snd (fst (fst (get_quantiles par fmin m s))).
Definition q_u par fmin m s : R := snd (fst (get_quantiles par fmin m s)).
Definition q_s par fmin m s : R := snd (get_quantiles par fmin m s).
Lemma quantiles_rows par fmin f h X : quantiles_arr par fmin (column f X) (column h X) =
  Ok (column (fun x => q_phi par fmin (f x) (h x)) X, column (fun x => q_Phi par fmin (f x) (h x)) X, column (fun x => q_u par fmin (f x) (h x)) X, column (fun x => q_s par fmin (f x) (h x)) X).
Proof.
  unfold quantiles_arr. rewrite !un_c, bin_sc. cbn [bind]. rewrite bin_cs. cbn [bind]. rewrite bin_cc. cbn [bind]. rewrite !un_c. reflexivity.
Qed.
Lemma quantiles_eq par fmin m s : get_quantiles par fmin m s = (q_phi par fmin m s, q_Phi par fmin m s, q_u par fmin m s, q_s par fmin m s).
Proof. reflexivity. Qed.

Lemma EI_rows j M X : EI_arr j M X = Ok (column (compute_acq (EI j M)) X).
Proof.
  unfold EI_arr, predict_arr. rewrite quantiles_rows. cbn [bind]. rewrite bin_cc. cbn [bind]. rewrite bin_cc. cbn [bind]. rewrite bin_cc.
  f_equal. apply column_ext. intros x _. cbn [compute_acq EI]. unfold mean_at, std_at. destruct (predict M x) as [m s]. cbn [fst snd]. rewrite quantiles_eq. reflexivity.
Qed.
Lemma MPI_rows j M X : MPI_arr j M X = Ok (column (compute_acq (MPI j M)) X).
Proof.
  unfold MPI_arr, predict_arr. rewrite quantiles_rows. cbn [bind].
  f_equal. apply column_ext. intros x _. cbn [compute_acq MPI]. unfold mean_at, std_at. destruct (predict M x) as [m s]. cbn [fst snd]. rewrite quantiles_eq. reflexivity.
Qed.
Lemma LCB_rows w M X : LCB_arr w M X = Ok (column (compute_acq (LCB w M)) X).
Proof.
  unfold LCB_arr, predict_arr. rewrite bin_sc. cbn [bind]. rewrite un_c, bin_cc.
  f_equal. apply column_ext. intros x _. cbn [compute_acq LCB]. unfold mean_at, std_at. destruct (predict M x) as [m s]. reflexivity.
Qed.
(** Gradients have one entry per coordinate. *)
Definition has_width (M : model) (d : nat) (X : list pt) : Prop := forall x, In x X -> length (gdm (predict_withGradients M x)) = d /\ length (gds (predict_withGradients M x)) = d.
Ltac gsplit M x := destruct (predict_withGradients M x) as [[[m s] dm] ds] eqn:?E; cbn [gmean gstd gdm gds fst snd].
Lemma vzip_map f1 f2 g : forall a b : pt, vzip g (map f1 a) (map f2 b) = vzip (fun x y => g (f1 x) (f2 y)) a b.
Proof. induction a as [|x a IH]; intros [|y b]; cbn; try reflexivity. now rewrite IH. Qed.
Lemma vzip_ext f g : (forall x y, f x y = g x y) -> forall a b : pt, vzip f a b = vzip g a b.
Proof. intros H. induction a as [|x a IH]; intros [|y b]; cbn; try reflexivity. now rewrite IH, H. Qed.
Lemma map_vzip h g : forall a b : pt, map h (vzip g a b) = vzip (fun x y => h (g x y)) a b.
Proof. induction a as [|x a IH]; intros [|y b]; cbn; try reflexivity. now rewrite IH. Qed.
Lemma vzip_r f2 g : forall a b : pt, vzip g a (map f2 b) = vzip (fun x y => g x (f2 y)) a b.
Proof. induction a as [|x a IH]; intros [|y b]; cbn; try reflexivity. now rewrite IH. Qed.
Lemma vzip_length g : forall a b : pt, length a = length b -> length (vzip g a b) = length a.
Proof. induction a as [|x a IH]; intros [|y b]; cbn; intros H; try lia. rewrite IH; lia. Qed.

Lemma EI_grad_rows j M d X : has_width M d X -> EI_arr_withGradients j M d X =
  Ok (column (fun x => fst (compute_acq_withGradients (EI j M) x)) X, matrix d (fun x => snd (compute_acq_withGradients (EI j M) x)) X).
Proof.
  intros W. unfold EI_arr_withGradients, predict_arr_withGradients. rewrite quantiles_rows. cbn [bind]. do 3 (rewrite bin_cc; cbn [bind]).
  rewrite bin_mc, bin_cm. cbn [bind]. rewrite bin_mm by (intros x I; rewrite !map_length; destruct (W x I); congruence). cbn [bind]. f_equal. f_equal.
  - apply column_ext. intros x _. cbn [compute_acq_withGradients EI]. gsplit M x. rewrite quantiles_eq. reflexivity.
  - apply matrix_ext. intros x _. cbn [compute_acq_withGradients EI]. gsplit M x. rewrite quantiles_eq. cbn [snd]. unfold vsub, vscale.
    rewrite !vzip_map. apply vzip_ext. intros a b. ring.
Qed.
Lemma MPI_grad_rows j M d X : has_width M d X -> MPI_arr_withGradients j M d X =
  Ok (column (fun x => fst (compute_acq_withGradients (MPI j M) x)) X, matrix d (fun x => snd (compute_acq_withGradients (MPI j M) x)) X).
Proof.
  intros W. unfold MPI_arr_withGradients, predict_arr_withGradients. rewrite quantiles_rows. cbn [bind]. rewrite bin_cc, bin_mc. cbn [bind].
  rewrite bin_mm by (intros x I; rewrite !map_length; destruct (W x I); congruence). cbn [bind]. rewrite un_c, bin_cm. cbn [bind]. f_equal. f_equal.
  - apply column_ext. intros x _. cbn [compute_acq_withGradients MPI]. gsplit M x. rewrite quantiles_eq. reflexivity.
  - apply matrix_ext. intros x _. cbn [compute_acq_withGradients MPI]. gsplit M x. rewrite quantiles_eq. cbn [snd]. unfold vadd, vscale.
    rewrite vzip_r, vzip_r, map_vzip, map_vzip. apply vzip_ext. intros a b. ring.
Qed.
Lemma LCB_grad_rows w M d X : has_width M d X -> LCB_arr_withGradients w M d X =
  Ok (column (fun x => fst (compute_acq_withGradients (LCB w M) x)) X, matrix d (fun x => snd (compute_acq_withGradients (LCB w M) x)) X).
Proof.
  intros W. unfold LCB_arr_withGradients, predict_arr_withGradients. rewrite bin_sc. cbn [bind]. rewrite un_c, bin_cc. cbn [bind]. rewrite bin_sm. cbn [bind].
  rewrite un_m, bin_mm by (intros x I; rewrite !map_length; destruct (W x I); congruence). cbn [bind]. f_equal. f_equal.
  - apply column_ext. intros x _. cbn [compute_acq_withGradients LCB]. gsplit M x. reflexivity.
  - apply matrix_ext. intros x _. cbn [compute_acq_withGradients LCB]. gsplit M x. unfold vadd, vscale.
    rewrite !vzip_map. apply vzip_ext. intros a b. ring.
Qed.

(** Weighted. *)
Lemma weighted_rows A c ok X f cx : f = Ok (column (compute_acq A) X) -> fst (cx X) = column (fun x => fst (c x)) X ->
  weighted_arr f cx ok X = Ok (column (acquisition_function A c ok) X).
Proof.
  intros -> C. unfold weighted_arr, indicator_arr. cbn [bind]. fold (column (fun x => b2r (ok x)) X). rewrite bin_cc. cbn [bind]. rewrite un_c, C, bin_cc. reflexivity.
Qed.
Lemma weighted_grad_rows A c ok X d f cx : f = Ok (column (fun x => fst (compute_acq_withGradients A x)) X, matrix d (fun x => snd (compute_acq_withGradients A x)) X) ->
  cx X = (column (fun x => fst (c x)) X, matrix d (fun x => snd (c x)) X) ->
  (forall x, In x X -> length (snd (compute_acq_withGradients A x)) = length (snd (c x))) ->
  weighted_arr_withGradients f cx ok X = Ok (column (fun x => fst (acquisition_function_withGradients A c ok x)) X, matrix d (fun x => snd (acquisition_function_withGradients A c ok x)) X).
Proof.
  intros -> C L. unfold weighted_arr_withGradients, indicator_arr. cbn [bind]. rewrite C. fold (column (fun x => b2r (ok x)) X).
  rewrite bin_cc. cbn [bind]. rewrite bin_mc, bin_cm. cbn [bind]. rewrite bin_mm by (intros x I; rewrite !map_length; now apply L). cbn [bind].
  rewrite un_c, bin_mc. cbn [bind]. rewrite un_c, bin_cc. cbn [bind]. rewrite un_m, bin_mc. cbn [bind]. f_equal. f_equal.
  - apply column_ext. intros x _. unfold acquisition_function_withGradients. destruct (compute_acq_withGradients A x) as [v dv]. destruct (c x) as [k dk]. reflexivity.
  - apply matrix_ext. intros x _. unfold acquisition_function_withGradients. destruct (compute_acq_withGradients A x) as [v dv]. destruct (c x) as [k dk]. cbn [fst snd].
    unfold vsub, vscale. rewrite !vzip_map, !map_vzip. apply vzip_ext. intros a b. do 3 f_equal. ring.
Qed.
Lemma constant_rows d X : (forall x, In x X -> length x = d) -> constant_cost_arr d X = (column (fun x => fst (constant_cost x)) X, matrix d (fun x => snd (constant_cost x)) X).
Proof.
  intros L. unfold constant_cost_arr, column, matrix, constant_cost. f_equal. f_equal. apply map_ext_in. intros x I. cbn [snd]. rewrite <- (L x I). clear.
  induction x as [|v x IH]; cbn; [reflexivity|]. now rewrite IH.
Qed.
Lemma cost_gp_rows M d X : cost_gp_arr M d X = Ok (column (fun x => fst (cost_gp_withGradients M x)) X, matrix d (fun x => snd (cost_gp_withGradients M x)) X).
Proof.
  unfold cost_gp_arr, predict_arr_withGradients. rewrite un_c, bin_cm. cbn [bind]. f_equal. f_equal.
  - apply column_ext. intros x _. unfold cost_gp_withGradients. gsplit M x. reflexivity.
  - apply matrix_ext. intros x _. unfold cost_gp_withGradients. gsplit M x. reflexivity.
Qed.
(** Samples. *)
Lemma accumulate_rows X : forall (fs : list (pt -> R)) (acc : pt -> R), accumulate (column acc X) (map (fun f => Ok (column f X)) fs) =
  Ok (column (fun x => fold_left Rplus (map (fun f => f x) fs) (acc x)) X).
Proof. induction fs as [|f fs IH]; intros acc; cbn [accumulate map fold_left]; [reflexivity|]. cbn [bind]. rewrite bin_cc. cbn [bind]. apply IH. Qed.
Lemma integrated_rows one (row : model -> pt -> R) Ms X : Ms <> [] -> (forall M, one M X = Ok (column (row M) X)) ->
  integrated one Ms X = Ok (column (fun x => fold_left Rplus (map (fun M => row M x) Ms) 0 / INR (length Ms)) X).
Proof.
  intros NE H. unfold integrated. destruct Ms as [|M Ms]; [easy|].
  replace (map (fun M0 => one M0 X) (M :: Ms)) with (Ok (column (row M) X) :: map (fun f => Ok (column f X)) (map row Ms)).
  2:{ cbn [map]. rewrite H. f_equal. rewrite map_map. apply map_ext. intros N. now rewrite H. }
  cbn [accumulate bind]. rewrite bin_sc. cbn [bind]. rewrite accumulate_rows. cbn [bind]. rewrite bin_cs. f_equal. apply column_ext. intros x _.
  rewrite map_map. cbn [map fold_left]. reflexivity.
Qed.
Lemma ei_sample_rows j M X : ei_sample_arr j M X = Ok (column (fun x => ei_sample j (mean_at M x, std_at M x, get_fmin M)) X).
Proof.
  unfold ei_sample_arr, predict_arr. rewrite quantiles_rows. cbn [bind]. rewrite bin_sc. cbn [bind]. rewrite bin_cs. cbn [bind]. rewrite bin_cc. cbn [bind]. rewrite bin_cc. cbn [bind]. rewrite bin_cc. reflexivity.
Qed.
From Coq Require Import Permutation Sorted.
From Verif.Spec Require Import ArraysSpec.

(** Penalisers. *)
Lemma vzip_same {A} (g : R -> R -> R) (f h : A -> R) l : vzip g (map f l) (map h l) = map (fun a => g (f a) (h a)) l.
Proof. induction l as [|a l IH]; cbn; [reflexivity|]. now rewrite IH. Qed.
Lemma first_rows f X : first_column (column f X) = Ok (map f X).
Proof. unfold first_column, column. rewrite (mapM_pure _ (fun r => nth 0 r 0)). { now rewrite map_map. } intros r I. apply in_map_iff in I. destruct I as (x & <- & _). reflexivity. Qed.
Lemma distances_rows X (hs : list hammer_par) : distances X (map (fun h => fst (fst h)) hs) = matrix (length hs) (fun x => map (fun h => dist x (fst (fst h))) hs) X.
Proof. unfold distances, matrix. rewrite map_length. f_equal. apply map_ext. intros x. now rewrite map_map. Qed.
Lemma z_rows X (hs : list hammer_par) :
  (t <- bin Rminus (distances X (map (fun h => fst (fst h)) hs)) (V1 (map (fun h => snd (fst h)) hs)) ;; bin Rdiv t (V1 (map snd hs))) =
  Ok (matrix (length hs) (fun x => map (fun h => (dist x (fst (fst h)) - snd (fst h)) / snd h) hs) X).
Proof.
  rewrite distances_rows, bin_mv by (intros; now rewrite map_length). cbn [bind].
  rewrite (matrix_ext _ _ (fun x => map (fun h => dist x (fst (fst h)) - snd (fst h)) hs)) by (intros; apply vzip_same).
  rewrite bin_mv by (intros; now rewrite map_length). f_equal. apply matrix_ext. intros. apply vzip_same.
Qed.
Lemma bind_assoc {A B C} (r : res A) (f : A -> res B) (h : B -> res C) : bind (bind r f) h = bind r (fun a => bind (f a) h).
Proof. destruct r; reflexivity. Qed.
Lemma hammer_rows X hs : hammer_arr X hs = Ok (matrix (length hs) (fun x => map (hammer x) hs) X).
Proof.
  unfold hammer_arr. rewrite <- bind_assoc, z_rows. cbn [bind]. rewrite un_m. f_equal. apply matrix_ext. intros x _. rewrite map_map. apply map_ext.
  intros [[c r] s]. reflexivity.
Qed.
Definition penalisers (hs : option (list hammer_par)) : list hammer_par := match hs with Some l => l | None => [] end.
Lemma penalized_rows t u u' hs U X : U X = Ok (column u X) -> (forall x, u_value u' x = u x) ->
  penalized_arr t U hs X = Ok (V1 (map (penalized t u' (penalisers hs)) X)).
Proof.
  intros H E. unfold penalized_arr. rewrite H. cbn [bind]. rewrite first_rows. cbn [bind un]. rewrite !map_map. destruct hs as [hs|]; cbn [penalisers].
  - rewrite hammer_rows. cbn [bind]. unfold matrix. cbn [sum_last bind un]. rewrite !map_map, bin_vv. f_equal. f_equal. apply map_ext. intros x. unfold penalized. now rewrite E.
  - f_equal. f_equal. apply map_ext. intros x. unfold penalized. cbn [map fold_right]. rewrite E. lra.
Qed.
Lemma bin_hh {A} g (f h : pt -> A -> R) (hs : list A) b X :
  bin g (matrix b (fun x => map (f x) hs) X) (matrix b (fun x => map (h x) hs) X) = Ok (matrix b (fun x => map (fun a => g (f x a) (h x a)) hs) X).
Proof. rewrite bin_mm by (intros; now rewrite !map_length). f_equal. apply matrix_ext. intros. apply vzip_same. Qed.
Lemma bin_vh {A} g (f : A -> R) (h : pt -> A -> R) (hs : list A) X :
  bin g (V1 (map f hs)) (matrix (length hs) (fun x => map (h x) hs) X) = Ok (matrix (length hs) (fun x => map (fun a => g (f a) (h x a)) hs) X).
Proof. rewrite bin_vm by (intros; now rewrite map_length). f_equal. apply matrix_ext. intros. apply vzip_same. Qed.
Lemma un_h {A} g (f : pt -> A -> R) (hs : list A) b X : un g (matrix b (fun x => map (f x) hs) X) = matrix b (fun x => map (fun a => g (f x a)) hs) X.
Proof. rewrite un_m. apply matrix_ext. intros. apply map_map. Qed.
Lemma d_hammer_rows X hs : d_hammer_arr X hs = Ok (column (fun x => fold_right Rplus 0 (map (d_hammer x) hs)) X).
Proof.
  unfold d_hammer_arr. cbv zeta. rewrite <- bind_assoc, z_rows. cbn [bind]. rewrite !un_h.
  cbn [un]. rewrite map_map, bin_vh. cbn [bind]. rewrite un_h, bin_hh. cbn [bind]. rewrite distances_rows, bin_hh. cbn [bind]. rewrite bin_hh. cbn [bind].
  unfold matrix, column. f_equal. f_equal. rewrite map_map. apply map_ext. intros x. f_equal. f_equal. apply map_ext. intros [[c r] s]. reflexivity.
Qed.
Lemma d_penalized_row t u hs U dU d x : t <> TOther -> U [x] = Ok (column (u_value u) [x]) -> dU [x] = Ok (matrix d (u_grad u) [x]) ->
  d_penalized_arr t U dU hs [x] = Ok (matrix d (d_penalized t u (penalisers hs)) [x]).
Proof.
  intros T H G. unfold d_penalized_arr.
  replace (match t with TOther => Ok (Sc 1) | _ => _ end) with (u0 <- U [x];; f <- first_column u0;; Ok (un (lp_scale t) (un Ropp (V1 f)))) by (destruct t; easy).
  rewrite H. cbn [bind]. rewrite first_rows. cbn [bind un map]. rewrite G. cbn [bind].
  assert (B : bin Rmult (V1 [lp_scale t (- u_value u x)]) (matrix d (u_grad u) [x]) = Ok (matrix d (fun x => map (Rmult (lp_scale t (- u_value u x))) (u_grad u x)) [x])).
  { unfold bin, matrix. cbn [as_matrix ndim Nat.max length map]. rewrite common_1_l. cbn [bind]. rewrite pairs_l. cbn [bind map mapM fst snd]. rewrite pairs_const_l. reflexivity. }
  rewrite B. cbn [bind]. destruct hs as [hs|]; cbn [penalisers].
  - rewrite d_hammer_rows. cbn [bind]. rewrite bin_mc. f_equal. apply matrix_ext. intros y _. unfold d_penalized. now rewrite map_map.
  - f_equal. apply matrix_ext. intros y _. unfold d_penalized. apply map_ext. intros v. cbn [map fold_right]. lra.
Qed.
Lemma d_penalized_other u hs U dU d X : dU X = Ok (matrix d (u_grad u) X) ->
  d_penalized_arr TOther U dU hs X = Ok (matrix d (d_penalized TOther u (penalisers hs)) X).
Proof.
  intros G. unfold d_penalized_arr. cbn [bind]. rewrite G. cbn [bind]. rewrite bin_sm. cbn [bind]. destruct hs as [hs|]; cbn [penalisers].
  - rewrite d_hammer_rows. cbn [bind]. rewrite bin_mc. f_equal. apply matrix_ext. intros y _. unfold d_penalized. now rewrite map_map.
  - f_equal. apply matrix_ext. intros y _. unfold d_penalized. apply map_ext. intros v. cbn [map fold_right lp_scale]. lra.
Qed.
Lemma d_penalized_raises t u hs U dU d X : t <> TOther -> U X = Ok (column (u_value u) X) -> dU X = Ok (matrix d (u_grad u) X) ->
  length X <> 1%nat -> d <> 1%nat -> d <> length X -> d_penalized_arr t U dU hs X = Raise ValueError.
Proof.
  intros T H G N D1 DN. unfold d_penalized_arr.
  replace (match t with TOther => Ok (Sc 1) | _ => _ end) with (u0 <- U X;; f <- first_column u0;; Ok (un (lp_scale t) (un Ropp (V1 f)))) by (destruct t; easy).
  rewrite H. cbn [bind]. rewrite first_rows. cbn [bind un]. rewrite G. cbn [bind]. unfold bin, matrix. cbn [as_matrix]. unfold common. rewrite !map_length.
  replace (Nat.eqb (length X) d) with false by (symmetry; apply Nat.eqb_neq; congruence). replace (Nat.eqb (length X) 1) with false by (symmetry; now apply Nat.eqb_neq).
  replace (Nat.eqb d 1) with false by (symmetry; now apply Nat.eqb_neq). reflexivity.
Qed.
Lemma d_penalized_mixed t u U dU d X : t <> TOther -> U X = Ok (column (u_value u) X) -> dU X = Ok (matrix d (u_grad u) X) ->
  d = length X -> (forall x, In x X -> length (u_grad u x) = d) ->
  d_penalized_arr t U dU None X = Ok (matrix d (fun x => vzip Rmult (map (fun y => lp_scale t (- u_value u y)) X) (u_grad u x)) X).
Proof.
  intros T H G D L. unfold d_penalized_arr.
  replace (match t with TOther => Ok (Sc 1) | _ => _ end) with (u0 <- U X;; f <- first_column u0;; Ok (un (lp_scale t) (un Ropp (V1 f)))) by (destruct t; easy).
  rewrite H. cbn [bind]. rewrite first_rows. cbn [bind un]. rewrite G. cbn [bind]. rewrite !map_map. rewrite bin_vm by (auto; now rewrite map_length). reflexivity.
Qed.

(** Flat costs. *)
Lemma flat_one A c ok k f cx x : f = Ok (column (compute_acq A) [x]) -> fst (cx [x]) = V1 [k x] -> (forall y, fst (c y) = k y) ->
  weighted_arr f cx ok [x] = Ok (column (acquisition_function A c ok) [x]).
Proof.
  intros -> C E. unfold weighted_arr, indicator_arr. cbn [bind]. change (M2 1 (map (fun x0 => [b2r (ok x0)]) [x])) with (column (fun x => b2r (ok x)) [x]). rewrite bin_cc. cbn [bind]. rewrite un_c, C, bin_cv.
  cbn. unfold acquisition_function, column. cbn. now rewrite E.
Qed.
Lemma flat_many A ok k f cx X : f = Ok (column (compute_acq A) X) -> fst (cx X) = V1 (map k X) ->
  weighted_arr f cx ok X = Ok (M2 (length X) (map (fun x => map (fun y => - (compute_acq A x * b2r (ok x)) / k y) X) X)).
Proof.
  intros -> C. unfold weighted_arr, indicator_arr. cbn [bind]. fold (column (fun x => b2r (ok x)) X). rewrite bin_cc. cbn [bind]. rewrite un_c, C, bin_cv.
  rewrite map_length. f_equal. f_equal. apply map_ext. intros x. now rewrite map_map.
Qed.
Lemma concat_length {A} (l : list (list A)) n : List.Forall (fun r => length r = n) l -> length (concat l) = (length l * n)%nat.
Proof. induction 1 as [|r l H F IH]; [reflexivity|]. cbn [concat length]. rewrite app_length, H, IH. lia. Qed.
Lemma concat_nth (rows : list (list R)) n : forall i j, List.Forall (fun r => length r = n) rows -> (j < n)%nat -> nth (i * n + j) (concat rows) 0 = nth j (nth i rows []) 0.
Proof.
  induction rows as [|r rows IH]; intros i j F J.
  - cbn. destruct i; now destruct j, (_ + _)%nat.
  - inversion F as [|? ? L F']; subst. destruct i as [|i]; cbn [concat nth Nat.mul Nat.add].
    + now rewrite app_nth1.
    + rewrite app_nth2 by lia. replace (length r + i * length r + j - length r)%nat with (i * length r + j)%nat by lia. now apply IH.
Qed.
Lemma head_least argsort s i r : sorts argsort -> argsort s = i :: r -> (i < length s)%nat /\ forall j, (j < length s)%nat -> nth i s 0 <= nth j s 0.
Proof.
  intros S E. destruct (S s) as [P Q]. rewrite E in P, Q. inversion Q as [|? ? _ F]; subst. split.
  - assert (I : In i (seq 0 (length s))) by (apply (Permutation_in _ P); now left). apply in_seq in I. lia.
  - intros j J. assert (I : In j (i :: r)) by (apply Permutation_in with (seq 0 (length s)); [now apply Permutation_sym|apply in_seq; lia]).
    destruct I as [<-|I]; [lra|]. rewrite List.Forall_forall in F. now apply F.
Qed.
Lemma mapM_get_fail {A} (X : list A) i r : (length X <= i)%nat -> mapM (get X) (i :: r) = Raise IndexError.
Proof. intros H. cbn [mapM]. unfold get. apply nth_error_None in H. rewrite H. reflexivity. Qed.
Lemma flat_scores (v k : pt -> R) X i j x y : nth_error X i = Some x -> nth_error X j = Some y ->
  nth (i * length X + j) (flatten (M2 (length X) (map (fun x => map (fun y => - v x / k y) X) X))) 0 = - v x / k y.
Proof.
  intros I J. cbn [flatten]. assert (JL : (j < length X)%nat) by (apply nth_error_Some; congruence).
  rewrite (concat_nth _ (length X)); [|apply List.Forall_forall; intros r R; apply in_map_iff in R; destruct R as (? & <- & _); now rewrite map_length|exact JL].
  rewrite (nth_error_nth _ i [] (map_nth_error _ _ _ I)). now rewrite (nth_error_nth _ j 0 (map_nth_error _ _ _ J)).
Qed.
Lemma flat_anchors argsort (v k : pt -> R) X x0 n : sorts argsort -> nth_error X 0 = Some x0 -> (forall x, In x X -> 0 < k x) -> (1 <= n)%nat ->
  (exists x, In x X /\ v x0 < v x) ->
  scored_anchors argsort X (M2 (length X) (map (fun x => map (fun y => - v x / k y) X) X)) n = Raise IndexError.
Proof.
  intros S Z KP N (x & I & LT). apply In_nth_error in I. destruct I as (i & I). unfold scored_anchors.
  set (s := flatten _). assert (LS : length s = (length X * length X)%nat).
  { unfold s. cbn [flatten]. rewrite (concat_length _ (length X)); [now rewrite map_length|]. apply List.Forall_forall. intros r R. apply in_map_iff in R. destruct R as (? & <- & _). now rewrite map_length. }
  assert (LX : (0 < length X)%nat) by (apply nth_error_Some; congruence). assert (IL : (i < length X)%nat) by (apply nth_error_Some; congruence).
  destruct (argsort s) as [|a r] eqn:E.
  { destruct (S s) as [P _]. rewrite E in P. apply Permutation_length in P. rewrite seq_length, LS in P. cbn in P. nia. }
  destruct (head_least argsort s a r S E) as [AL H].
  replace (firstn (Nat.min (length s) n) (a :: r)) with (a :: firstn (pred (Nat.min (length s) n)) r).
  2:{ destruct (Nat.min (length s) n) eqn:M; [|reflexivity]. assert ((0 < length s)%nat) by nia. lia. }
  apply mapM_get_fail. destruct (Nat.lt_ge_cases a (length X)) as [AX|AX]; [|exact AX]. exfalso.
  destruct (nth_error X a) as [y|] eqn:Ey; [|apply nth_error_None in Ey; lia].
  assert (A1 : nth a s 0 = - v x0 / k y). { rewrite <- (flat_scores v k X 0 a x0 y Z Ey). reflexivity. }
  assert (A2 : nth (i * length X + a) s 0 = - v x / k y) by apply (flat_scores v k X i a x y I Ey).
  assert (H' := H (i * length X + a)%nat). rewrite A1, A2, LS in H'. assert (H2 : - v x0 / k y <= - v x / k y) by (apply H'; nia).
  assert (KY : 0 < k y) by (apply KP; eapply nth_error_In; eauto). unfold Rdiv in H2. apply Rmult_le_reg_r in H2; [lra|now apply Rinv_0_lt_compat].
Qed.
(** With one score per location the anchors are the best locations. *)
Lemma mapM_get_nth {A} (X : list A) : forall l r, mapM (get X) l = Ok r -> forall i, In i l -> (i < length X)%nat.
Proof.
  induction l as [|a l IH]; intros r E i I; [destruct I|]. cbn [mapM] in E. unfold get in E at 1. destruct (nth_error X a) as [x|] eqn:Ex; [|discriminate]. cbn [bind] in E.
  destruct (mapM (get X) l) eqn:M; [|discriminate]. destruct I as [<-|I]; [apply nth_error_Some; congruence|]. eapply IH; eauto.
Qed.
Lemma mapM_get_ok {A} (X : list A) l : (forall i, In i l -> (i < length X)%nat) -> exists r, mapM (get X) l = Ok r /\ List.Forall2 (fun i x => nth_error X i = Some x) l r.
Proof.
  induction l as [|a l IH]; intros H; [exists []; split; [reflexivity|constructor]|]. destruct IH as (r & M & F). { intros i I. apply H. now right. }
  specialize (H a (or_introl eq_refl)). apply nth_error_Some in H. destruct (nth_error X a) as [x|] eqn:E; [|easy]. exists (x :: r). cbn [mapM]. unfold get at 1. rewrite E. cbn [bind]. rewrite M. split; [reflexivity|now constructor].
Qed.
Lemma StronglySorted_app {A} (P : A -> A -> Prop) : forall l1 l2, StronglySorted P (l1 ++ l2) -> forall a b, In a l1 -> In b l2 -> P a b.
Proof.
  induction l1 as [|c l1 IH]; intros l2 S a b I J; [destruct I|]. inversion S as [|? ? S' F]; subst. destruct I as [<-|I].
  - rewrite List.Forall_forall in F. apply F, in_or_app. now right.
  - eapply IH; eauto.
Qed.
Lemma column_anchors argsort (v : pt -> R) X n : sorts argsort ->
  exists idx l, scored_anchors argsort X (column v X) n = Ok l /\ NoDup idx /\ length idx = Nat.min (length X) n /\
    List.Forall2 (fun i x => nth_error X i = Some x) idx l /\
    forall i j x y, In i idx -> ~ In j idx -> nth_error X i = Some x -> nth_error X j = Some y -> v x <= v y.
Proof.
  intros S. unfold scored_anchors. assert (FS : flatten (column v X) = map v X). { unfold column. cbn [flatten]. induction X as [|x X IH]; cbn; [reflexivity|]. now rewrite IH. }
  rewrite FS. set (s := map v X). assert (LS : length s = length X) by (unfold s; now rewrite map_length).
  destruct (S s) as [P Q]. set (k := Nat.min (length s) n).
  destruct (mapM_get_ok X (firstn k (argsort s))) as (l & M & F).
  { intros i I. assert (J : In i (argsort s)) by (rewrite <- (firstn_skipn k (argsort s)); apply in_or_app; now left).
    apply (Permutation_in _ P) in J. apply in_seq in J. lia. }
  exists (firstn k (argsort s)), l. split; [exact M|]. split; [|split; [|split; [exact F|]]].
  - assert (ND : NoDup (argsort s)) by (apply (Permutation_NoDup (Permutation_sym P)), seq_NoDup). rewrite <- (firstn_skipn k (argsort s)) in ND. clear - ND.
    revert ND. generalize (firstn k (argsort s)) (skipn k (argsort s)). induction l as [|a l IH]; intros m ND; [constructor|]. cbn in ND. inversion ND as [|? ? NI ND']; subst. constructor; [|eapply IH; eauto].
    intros I. apply NI, in_or_app. now left.
  - rewrite firstn_length. apply Permutation_length in P. rewrite P, seq_length. unfold k. rewrite LS. lia.
  - intros i j x y I J Ex Ey.
    assert (JL : In j (argsort s)). { apply Permutation_in with (seq 0 (length s)); [now apply Permutation_sym|]. apply in_seq. assert ((j < length X)%nat) by (apply nth_error_Some; congruence). lia. }
    rewrite <- (firstn_skipn k (argsort s)) in JL, Q. apply in_app_or in JL. destruct JL as [JL|JL]; [easy|].
    pose proof (StronglySorted_app _ _ _ Q i j I JL) as H. cbv beta in H.
    rewrite (nth_error_nth s i 0 (map_nth_error v i X Ex)), (nth_error_nth s j 0 (map_nth_error v j X Ey)) in H. exact H.
Qed.

(** Integrated acquisitions of a surrogate with several samples. *)
Lemma running_ext {A} (f g : A -> R) l : (forall a, f a = g a) -> fold_left Rplus (map f l) 0 = fold_left Rplus (map g l) 0.
Proof. intros H. now rewrite (map_ext _ _ H). Qed.
Lemma combine_maps {A B C} (f : A -> B) (g : A -> C) l : combine (map f l) (map g l) = map (fun a => (f a, g a)) l.
Proof. induction l; cbn; [reflexivity|]. now rewrite IHl. Qed.
Lemma EI_MCMC_rows j gs X : gs <> [] -> integrated (ei_sample_arr j) (map GPModel gs) X = Ok (column (EI_MCMC j (GPModel_MCMC gs)) X).
Proof.
  intros NE. rewrite (integrated_rows _ (fun M x => ei_sample j (mean_at M x, std_at M x, get_fmin M))).
  - f_equal. apply column_ext. intros x _. unfold EI_MCMC, running. cbn [predicts get_fmins GPModel_MCMC]. rewrite combine_maps, !map_map, !map_length. reflexivity.
  - now destruct gs.
  - intros. apply ei_sample_rows.
Qed.
Lemma MPI_MCMC_rows j gs X : gs <> [] -> integrated (MPI_arr j) (map GPModel gs) X = Ok (column (MPI_MCMC j (GPModel_MCMC gs)) X).
Proof.
  intros NE. rewrite (integrated_rows _ (fun M => compute_acq (MPI j M))).
  - f_equal. apply column_ext. intros x _. unfold MPI_MCMC, running. cbn [predicts get_fmins GPModel_MCMC]. rewrite combine_maps, !map_map, !map_length. reflexivity.
  - now destruct gs.
  - intros. apply MPI_rows.
Qed.
Lemma LCB_MCMC_rows w gs X : gs <> [] -> integrated (LCB_arr w) (map GPModel gs) X = Ok (column (LCB_MCMC w (GPModel_MCMC gs)) X).
Proof.
  intros NE. rewrite (integrated_rows _ (fun M => compute_acq (LCB w M))).
  - f_equal. apply column_ext. intros x _. unfold LCB_MCMC, running. cbn [predicts GPModel_MCMC]. rewrite !map_map, !map_length. reflexivity.
  - now destruct gs.
  - intros. apply LCB_rows.
Qed.
