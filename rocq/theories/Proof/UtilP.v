(** normalize and merge_values. *)
From Coq Require Import String List Bool Arith Lia.
From Coq Require Import Reals Lra Psatz.
From Verif.Model Require Import Py Util.
From Verif.Spec Require Import RSpec UtilSpec.
Import ListNotations.
Local Open Scope R_scope.

Lemma total_map_scale {A} (f : A -> R) c l : total (map (fun y => c * f y) l) = c * total (map f l).
Proof. unfold total. induction l as [|a l IH]; cbn; [ring|]. rewrite IH. ring. Qed.
Lemma total_map_sub (l : list R) c : total (map (fun y => y - c) l) = total l - INR (length l) * c.
Proof.
  unfold total. induction l as [|a l IH]; [cbn; ring|]. cbn [map fold_right]. rewrite IH. cbn [length]. rewrite S_INR. ring.
Qed.
Lemma INR_pos {A} (l : list A) : l <> [] -> 0 < INR (length l).
Proof. destruct l; intros H; [congruence|]. apply lt_0_INR. cbn. lia. Qed.
Lemma sq_total_nonneg (l : list R) c : 0 <= total (map (fun y => (y - c) * (y - c)) l).
Proof. unfold total. induction l as [|a l IH]; cbn; [lra|]. pose proof (Rle_0_sqr (a - c)). unfold Rsqr in *. lra. Qed.
Lemma sq_total_zero (l : list R) c : total (map (fun y => (y - c) * (y - c)) l) = 0 -> forall y, In y l -> y = c.
Proof.
  unfold total. induction l as [|a l IH]; cbn; intros H y I; [destruct I|].
  pose proof (Rle_0_sqr (a - c)). pose proof (sq_total_nonneg l c). unfold total, Rsqr in *.
  assert (Z : (a - c) * (a - c) = 0) by lra. assert (fold_right Rplus 0 (map (fun y => (y - c) * (y - c)) l) = 0) by lra.
  destruct I as [<-|I]; [|now apply IH]. apply Rmult_integral in Z. lra.
Qed.
Lemma mean_const (l : list R) c : l <> [] -> (forall y, In y l -> y = c) -> mean l = c.
Proof.
  intros N H. unfold mean. assert (E : total l = INR (length l) * c).
  { clear N. unfold total. induction l as [|a l IH]; [cbn; ring|]. cbn [fold_right length]. rewrite S_INR, IH by (intros; apply H; now right).
    rewrite (H a (or_introl eq_refl)). ring. }
  rewrite E. field. apply Rgt_not_eq. now apply INR_pos.
Qed.
Lemma std_nonneg l : 0 <= std l. Proof. apply sqrt_pos. Qed.
Lemma std_pos l : l <> [] -> ~ constant l -> 0 < std l.
Proof.
  intros N C. destruct (Rle_lt_or_eq_dec _ _ (std_nonneg l)) as [|E]; [assumption|]. exfalso. apply C.
  unfold std in E. assert (Z : mean (map (fun y => (y - mean l) * (y - mean l)) l) = 0).
  { apply sqrt_eq_0; [|congruence]. unfold mean at 1. apply Rmult_le_pos; [apply sq_total_nonneg|]. left. apply Rinv_0_lt_compat. rewrite map_length. now apply INR_pos. }
  unfold mean at 1 in Z. rewrite map_length in Z. pose proof (INR_pos l N).
  assert (T : total (map (fun y => (y - mean l) * (y - mean l)) l) = 0).
  { apply Rmult_integral in Z. destruct Z as [Z|Z]; [exact Z|]. exfalso. apply (Rinv_neq_0_compat (INR (length l))); lra. }
  intros a b A B. rewrite (sq_total_zero _ _ T a A), (sq_total_zero _ _ T b B). reflexivity.
Qed.
Lemma std_const l : l <> [] -> constant l -> std l = 0.
Proof.
  intros N C. destruct l as [|a l]; [congruence|]. assert (M : mean (a :: l) = a) by (apply mean_const; [exact N|intros y I; apply C; [exact I|now left]]).
  unfold std. rewrite M. rewrite (mean_const _ 0); [apply sqrt_0|discriminate|].
  intros y I. apply in_map_iff in I. destruct I as (b & <- & I). rewrite (C b a I (or_introl eq_refl)). ring.
Qed.
Lemma fold_min_le l : forall a, fold_left Rmin l a <= a /\ forall y, In y l -> fold_left Rmin l a <= y.
Proof.
  induction l as [|b l IH]; intros a; cbn; [split; [lra|tauto]|]. destruct (IH (Rmin a b)) as [H1 H2]. split.
  - eapply Rle_trans; [exact H1|apply Rmin_l].
  - intros y [<-|I]; [eapply Rle_trans; [exact H1|apply Rmin_r]|now apply H2].
Qed.
Lemma fold_min_in l : forall a, fold_left Rmin l a = a \/ In (fold_left Rmin l a) l.
Proof.
  induction l as [|b l IH]; intros a; cbn; [now left|]. destruct (IH (Rmin a b)) as [E|I]; [|now right; right].
  rewrite E. unfold Rmin. destruct (Rle_dec a b); [now left|right; now left].
Qed.
Lemma fold_max_ge l : forall a, a <= fold_left Rmax l a /\ forall y, In y l -> y <= fold_left Rmax l a.
Proof.
  induction l as [|b l IH]; intros a; cbn; [split; [lra|tauto]|]. destruct (IH (Rmax a b)) as [H1 H2]. split.
  - eapply Rle_trans; [apply Rmax_l|exact H1].
  - intros y [<-|I]; [eapply Rle_trans; [apply Rmax_r|exact H1]|now apply H2].
Qed.
Lemma fold_max_in l : forall a, fold_left Rmax l a = a \/ In (fold_left Rmax l a) l.
Proof.
  induction l as [|b l IH]; intros a; cbn; [now left|]. destruct (IH (Rmax a b)) as [E|I]; [|now right; right].
  rewrite E. unfold Rmax. destruct (Rle_dec a b); [right; now left|now left].
Qed.
Lemma lmin_spec l : l <> [] -> In (lmin l) l /\ forall y, In y l -> lmin l <= y.
Proof.
  destruct l as [|a l]; intros N; [congruence|]. cbn [lmin]. destruct (fold_min_le l a) as [H1 H2]. split.
  - destruct (fold_min_in l a) as [->|I]; [now left|now right].
  - intros y [<-|I]; auto.
Qed.
Lemma lmax_spec l : l <> [] -> In (lmax l) l /\ forall y, In y l -> y <= lmax l.
Proof.
  destruct l as [|a l]; intros N; [congruence|]. cbn [lmax]. destruct (fold_max_ge l a) as [H1 H2]. split.
  - destruct (fold_max_in l a) as [->|I]; [now left|now right].
  - intros y [<-|I]; auto.
Qed.

Lemma affine_order a b Y : 0 < a -> order_preserving Y (map (fun y => a * y + b) Y).
Proof.
  intros A. split; [apply map_length|]. intros i j I J.
  rewrite (nth_indep (map _ Y) 0 (a * 0 + b)) by (rewrite map_length; exact I). rewrite (map_nth (fun y => a * y + b)).
  rewrite (nth_indep (map _ Y) 0 (a * 0 + b)) by (rewrite map_length; exact J). rewrite (map_nth (fun y => a * y + b)).
  split; intros H; nra.
Qed.

Theorem normalize_stats shape Y : Y <> [] -> fold_right Nat.max 0%nat shape = length Y ->
  exists N, normalize shape Y "stats" = Ok N /\ mean N = 0 /\ order_preserving Y N /\
    (~ constant Y -> std N = 1) /\ (constant Y -> Forall (fun y => y = 0) N).
Proof.
  intros NE SH. unfold normalize. rewrite SH, Nat.eqb_refl. cbn [negb]. change (String.eqb "stats" "stats") with true. cbv iota zeta.
  pose proof (INR_pos Y NE) as LP.
  assert (M0 : forall c, mean (map (fun y => c * (y - mean Y)) Y) = 0).
  { intros c. unfold mean at 1. rewrite total_map_scale, total_map_sub, map_length. unfold mean, total. field. lra. }
  destruct (Rlt_dec 0 (std Y)) as [SP|SP].
  - assert (E : map (fun y => y / std Y) (map (fun y => y - mean Y) Y) = map (fun y => / std Y * (y - mean Y)) Y).
    { rewrite map_map. apply map_ext. intros y. unfold Rdiv. ring. }
    rewrite E. eexists. split; [reflexivity|]. split; [apply M0|]. split; [|split].
    + replace (map (fun y => / std Y * (y - mean Y)) Y) with (map (fun y => / std Y * y + - (/ std Y * mean Y)) Y) by (apply map_ext; intros; ring).
      apply affine_order. now apply Rinv_0_lt_compat.
    + intros _. unfold std at 1. rewrite M0. rewrite map_map.
      rewrite (map_ext _ (fun y => / std Y * / std Y * ((y - mean Y) * (y - mean Y)))) by (intros; ring).
      unfold mean at 1. rewrite total_map_scale, map_length.
      assert (V : total (map (fun y => (y - mean Y) * (y - mean Y)) Y) = std Y * std Y * INR (length Y)).
      { unfold std. rewrite sqrt_sqrt.
        - unfold mean at 3. rewrite map_length. field. lra.
        - unfold mean at 1. apply Rmult_le_pos; [apply sq_total_nonneg|]. rewrite map_length. left. now apply Rinv_0_lt_compat. }
      rewrite V. replace (/ std Y * / std Y * (std Y * std Y * INR (length Y)) / INR (length Y)) with 1 by (field; lra). apply sqrt_1.
    + intros C. exfalso. rewrite (std_const Y NE C) in SP. lra.
  - exists (map (fun y => y - mean Y) Y). split; [reflexivity|].
    split; [rewrite <- (M0 1); f_equal; apply map_ext; intros; ring|]. split; [|split].
    + replace (map (fun y => y - mean Y) Y) with (map (fun y => 1 * y + - mean Y) Y) by (apply map_ext; intros; ring). apply affine_order. lra.
    + intros C. exfalso. apply SP. now apply std_pos.
    + intros C. apply Forall_forall. intros n I. apply in_map_iff in I. destruct I as (y & <- & I).
      rewrite (mean_const Y y NE); [ring|]. intros z J. now apply C.
Qed.
Theorem normalize_maxmin shape Y : Y <> [] -> fold_right Nat.max 0%nat shape = length Y ->
  exists N, normalize shape Y "maxmin" = Ok N /\ order_preserving Y N /\
    (~ constant Y -> Forall (fun y => -1 <= y <= 1) N /\ In (-1) N /\ In 1 N) /\ (constant Y -> Forall (fun y => y = 0) N).
Proof.
  intros NE SH. unfold normalize. rewrite SH, Nat.eqb_refl. cbn [negb]. change (String.eqb "maxmin" "stats") with false.
  change (String.eqb "maxmin" "maxmin") with true. cbv iota zeta.
  destruct (lmin_spec Y NE) as [MI ML], (lmax_spec Y NE) as [XI XL].
  destruct (Rlt_dec 0 (lmax Y - lmin Y)) as [RP|RP].
  - set (r := lmax Y - lmin Y) in *. rewrite map_map. eexists. split; [reflexivity|]. split; [|split].
    + replace (map (fun x => 2 * ((x - lmin Y) / r - / 2)) Y) with (map (fun y => 2 / r * y + - (2 / r * lmin Y + 1)) Y) by (apply map_ext; intros; field; lra).
      apply affine_order. apply Rdiv_lt_0_compat; lra.
    + intros _. split; [|split].
      * apply Forall_forall. intros n I. apply in_map_iff in I. destruct I as (y & <- & I). specialize (ML y I). specialize (XL y I).
        assert (0 <= (y - lmin Y) / r <= 1); [|lra]. split.
        -- apply Rmult_le_pos; [lra|]. left. now apply Rinv_0_lt_compat.
        -- apply (Rmult_le_reg_r r); [exact RP|]. unfold Rdiv. rewrite Rmult_assoc, Rinv_l by lra. unfold r. lra.
      * apply in_map_iff. exists (lmin Y). split; [field; lra|exact MI].
      * apply in_map_iff. exists (lmax Y). split; [unfold r; field; fold r; lra|exact XI].
    + intros C. exfalso. unfold r in RP. rewrite (C _ _ XI MI) in RP. lra.
  - exists (map (fun y => y - lmin Y) Y). split; [reflexivity|]. split; [|split].
    + replace (map (fun y => y - lmin Y) Y) with (map (fun y => 1 * y + - lmin Y) Y) by (apply map_ext; intros; ring). apply affine_order. lra.
    + intros C. exfalso. apply C. intros a b A B. pose proof (ML a A). pose proof (ML b B). pose proof (XL a A). pose proof (XL b B). lra.
    + intros C. apply Forall_forall. intros n I. apply in_map_iff in I. destruct I as (y & <- & I). rewrite (C _ _ MI I). ring.
Qed.
Theorem normalize_rejects shape Y t :
  (fold_right Nat.max 0%nat shape <> length Y -> normalize shape Y t = Raise NotImplementedError) /\
  (fold_right Nat.max 0%nat shape = length Y -> t <> "stats"%string -> t <> "maxmin"%string -> normalize shape Y t = Raise ValueError).
Proof.
  unfold normalize. split.
  - intros H. apply Nat.eqb_neq in H. now rewrite H.
  - intros -> A B. rewrite Nat.eqb_refl. cbn [negb]. apply String.eqb_neq in A. apply String.eqb_neq in B. now rewrite A, B.
Qed.

(** ---- merge_values *)
Local Open Scope nat_scope.
Definition rectangular {A} (m : list (list A)) : Prop := exists d, Forall (fun r => length r = d) m.
Definition nonempty {A} (m : list (list A)) : Prop := exists r, In r m /\ r <> [].
Lemma size_zero {A} (m : list (list A)) : array_size m = 0 <-> ~ nonempty m.
Proof.
  unfold array_size. induction m as [|r m IH]; cbn.
  - split; [intros _ (r & [] & _)|reflexivity].
  - split.
    + intros H (r' & [<-|I] & N); [destruct r; [congruence|cbn in H; lia]|]. apply IH; [lia|]. now exists r'.
    + intros H. destruct r as [|a r]; [|exfalso; apply H; exists (a :: r); split; [now left|discriminate]].
      cbn. apply IH. intros (r' & I & N). apply H. exists r'. split; [now right|exact N].
Qed.
Definition product {A} (a b : list (list A)) : list (list A) := flat_map (fun r => map (fun r' => r ++ r') b) a.
Lemma merge_arrays {A} (v w : values A) : merge_values v w =
  (let a := values_to_array v in let b := values_to_array w in
   if Nat.eqb (array_size a) 0 then b else if Nat.eqb (array_size b) 0 then a else product a b).
Proof. reflexivity. Qed.
Lemma product_nth {A} (a b : list (list A)) d : forall i j, i < length a -> j < length b ->
  nth (i * length b + j) (product a b) d = nth i a d ++ nth j b d.
Proof.
  unfold product. induction a as [|r a IH]; intros i j I J; cbn in I; [lia|]. cbn [flat_map].
  destruct i as [|i].
  - cbn [Nat.mul Nat.add nth]. rewrite app_nth1 by (rewrite map_length; exact J).
    rewrite (nth_indep _ d (r ++ d)) by (rewrite map_length; exact J). exact (map_nth (fun r' => r ++ r') b d j).
  - rewrite app_nth2 by (rewrite map_length; nia). rewrite map_length. replace (S i * length b + j - length b) with (i * length b + j) by nia.
    cbn [nth]. apply IH; lia.
Qed.
Lemma product_length {A} (a b : list (list A)) : length (product a b) = length a * length b.
Proof. unfold product. induction a as [|r a IH]; cbn; [reflexivity|]. rewrite app_length, map_length, IH. reflexivity. Qed.
Lemma product_assoc {A} (a b c : list (list A)) : product (product a b) c = product a (product b c).
Proof.
  unfold product. induction a as [|r a IH]; cbn; [reflexivity|]. rewrite flat_map_app, IH. f_equal.
  clear IH. induction b as [|s b IH]; cbn; [reflexivity|]. rewrite map_app, IH. f_equal. rewrite map_map. apply map_ext. intros t. symmetry. apply app_assoc.
Qed.
Lemma product_size {A} (a b : list (list A)) : array_size a <> 0 -> array_size b <> 0 -> array_size (product a b) <> 0.
Proof.
  intros HA HB H. assert (NA : exists r, In r a /\ r <> []).
  { clear H. induction a as [|r a IH]; [exfalso; apply HA; reflexivity|]. destruct r as [|x r]; [|exists (x :: r); split; [now left|discriminate]].
    destruct IH as (r' & I & N); [exact HA|]. exists r'. split; [now right|exact N]. }
  destruct NA as (r & IA & NR). destruct b as [|s b]; [exfalso; apply HB; reflexivity|].
  apply size_zero in H. apply H. exists (r ++ s). split.
  - unfold product. apply in_flat_map. exists r. split; [exact IA|]. now left.
  - destruct r; [congruence|discriminate].
Qed.
Theorem merge_product {A} (v w : values A) : array_size (values_to_array v) <> 0 -> array_size (values_to_array w) <> 0 ->
  length (merge_values v w) = length (values_to_array v) * length (values_to_array w) /\
  forall i j, i < length (values_to_array v) -> j < length (values_to_array w) ->
    nth (i * length (values_to_array w) + j) (merge_values v w) [] = nth i (values_to_array v) [] ++ nth j (values_to_array w) [].
Proof.
  intros HA HB. rewrite merge_arrays. cbv zeta. apply Nat.eqb_neq in HA. apply Nat.eqb_neq in HB. rewrite HA, HB.
  split; [apply product_length|]. intros. now apply product_nth.
Qed.
Theorem merge_neutral {A} (v w : values A) :
  (array_size (values_to_array v) = 0 -> merge_values v w = values_to_array w) /\
  (array_size (values_to_array v) <> 0 -> array_size (values_to_array w) = 0 -> merge_values v w = values_to_array v).
Proof.
  rewrite merge_arrays. cbv zeta. split.
  - intros H. now rewrite (proj2 (Nat.eqb_eq _ _) H).
  - intros H H'. apply Nat.eqb_neq in H. rewrite H. now rewrite (proj2 (Nat.eqb_eq _ _) H').
Qed.
Theorem merge_assoc {A} (u v w : values A) :
  merge_values (VMat (merge_values u v)) w = merge_values u (VMat (merge_values v w)).
Proof.
  rewrite !merge_arrays. cbv zeta. assert (V : forall m : list (list A), values_to_array (VMat m) = m) by reflexivity. rewrite !V. clear V.
  generalize (values_to_array u) as a. generalize (values_to_array v) as b. generalize (values_to_array w) as c. intros c b a.
  destruct (Nat.eqb_spec (array_size a) 0) as [EA|EA]; [reflexivity|].
  destruct (Nat.eqb_spec (array_size b) 0) as [EB|EB].
  - destruct (Nat.eqb_spec (array_size a) 0) as [E|_]; [contradiction|]. destruct (Nat.eqb (array_size c) 0) eqn:EC; [|reflexivity]. reflexivity.
  - pose proof (product_size a b EA EB) as PAB. apply Nat.eqb_neq in PAB. rewrite PAB.
    destruct (Nat.eqb_spec (array_size c) 0) as [EC|EC].
    + apply Nat.eqb_neq in EB. rewrite EB. reflexivity.
    + pose proof (product_size b c EB EC) as PBC. apply Nat.eqb_neq in PBC. rewrite PBC. apply product_assoc.
Qed.

(** ---- The statements in terms of the specification. *)
Lemma vector_shape_max shape n : 0 < n -> vector_shape shape n -> fold_right Nat.max 0 shape = n.
Proof.
  intros N [I H]. assert (U : forall l, (forall k, In k l -> k = n \/ k = 1) -> fold_right Nat.max 0 l <= n).
  { induction l as [|k l IH]; intros K; cbn; [lia|]. specialize (IH (fun k' I' => K k' (or_intror I'))). destruct (K k (or_introl eq_refl)); lia. }
  assert (L : forall l, In n l -> n <= fold_right Nat.max 0 l).
  { induction l as [|k l IH]; intros []; cbn; [subst; lia|]. specialize (IH H0). lia. }
  specialize (U shape H). specialize (L shape I). lia.
Qed.
Lemma length_pos {A} (l : list A) : l <> [] -> 0 < length l. Proof. destruct l; [congruence|cbn; lia]. Qed.
Theorem normalize_stats_vec shape Y : Y <> [] -> vector_shape shape (length Y) ->
  exists N, normalize shape Y "stats" = Ok N /\ average N = 0%R /\ order_preserving Y N /\
    (~ constant Y -> deviation N = 1%R) /\ (constant Y -> Forall (fun y => y = 0%R) N).
Proof. intros H V. exact (normalize_stats shape Y H (vector_shape_max _ _ (length_pos Y H) V)). Qed.
Theorem normalize_maxmin_vec shape Y : Y <> [] -> vector_shape shape (length Y) ->
  exists N, normalize shape Y "maxmin" = Ok N /\ order_preserving Y N /\
    (~ constant Y -> Forall (fun y => (-1 <= y <= 1)%R) N /\ In (-1)%R N /\ In 1%R N) /\ (constant Y -> Forall (fun y => y = 0%R) N).
Proof. intros H V. exact (normalize_maxmin shape Y H (vector_shape_max _ _ (length_pos Y H) V)). Qed.
Theorem normalize_rejects_vec shape Y t :
  ((forall k, In k shape -> k < length Y) -> Y <> [] -> normalize shape Y t = Raise NotImplementedError) /\
  (vector_shape shape (length Y) -> Y <> [] -> t <> "stats"%string -> t <> "maxmin"%string -> normalize shape Y t = Raise ValueError).
Proof.
  destruct (normalize_rejects shape Y t) as [A B]. split.
  - intros H N. apply A. assert (fold_right Nat.max 0 shape < length Y); [|lia].
    pose proof (length_pos Y N). clear -H H0. induction shape as [|k l IH]; cbn; [lia|]. specialize (IH (fun k' I' => H k' (or_intror I'))). specialize (H k (or_introl eq_refl)). lia.
  - intros V N. apply B. apply vector_shape_max; [now apply length_pos|exact V].
Qed.
Lemma matrix_size {A} (m : list (list A)) n d : matrix m n d -> array_size m <> 0.
Proof.
  intros (L & N & D & H) Z. destruct m as [|r m]; [cbn in L; lia|]. specialize (H r (or_introl eq_refl)). unfold array_size in Z. cbn in Z. lia.
Qed.
Theorem merge_matrices {A} (a b : list (list A)) n d n' d' : matrix a n d -> matrix b n' d' ->
  matrix (merge_values (VMat a) (VMat b)) (n * n') (d + d') /\
  forall i j, i < n -> j < n' -> nth (i * n' + j) (merge_values (VMat a) (VMat b)) [] = nth i a [] ++ nth j b [].
Proof.
  intros MA MB. pose proof (matrix_size _ _ _ MA) as SA. pose proof (matrix_size _ _ _ MB) as SB.
  destruct (merge_product (VMat a) (VMat b) SA SB) as [L N]. cbn [values_to_array] in L, N.
  destruct MA as (LA & PA & DA & HA), MB as (LB & PB & DB & HB). rewrite LA, LB in *. split; [|exact N].
  split; [exact L|]. split; [nia|]. split; [lia|]. intros r I. rewrite merge_arrays in I. cbv zeta in I. cbn [values_to_array] in I.
  apply Nat.eqb_neq in SA. apply Nat.eqb_neq in SB. rewrite SA, SB in I. unfold product in I. apply in_flat_map in I. destruct I as (ra & IA & I).
  apply in_map_iff in I. destruct I as (rb & <- & IB). rewrite app_length, (HA ra IA), (HB rb IB). reflexivity.
Qed.
Theorem merge_kinds {A} (v w : values A) rv rw :
  (forall u r, (u, r) = (v, rv) \/ (u, r) = (w, rw) ->
     (exists l, u = VTuple l /\ r = map (fun a => [a]) l) \/ (exists l, u = VRow l /\ r = [l]) \/ (exists a, u = VNum a /\ r = [[a]]) \/ u = VMat r) ->
  merge_values v w = merge_values (VMat rv) (VMat rw).
Proof.
  intros H. assert (K : forall u r, (u, r) = (v, rv) \/ (u, r) = (w, rw) -> values_to_array u = r).
  { intros u r E. destruct (H u r E) as [(l & -> & ->)|[(l & -> & ->)|[(a & -> & ->)| ->]]]; reflexivity. }
  rewrite !merge_arrays. cbv zeta. rewrite (K v rv) by now left. rewrite (K w rw) by now right. reflexivity.
Qed.
Theorem merge_empty {A} (a : list (list A)) n d e : matrix a n d -> (forall r, In r e -> r = []) ->
  merge_values (VMat e) (VMat a) = a /\ merge_values (VMat a) (VMat e) = a.
Proof.
  intros MA E. assert (Z : array_size e = 0). { apply size_zero. intros (r & I & N). apply N. now apply E. }
  destruct (merge_neutral (VMat e) (VMat a)) as [H1 _]. destruct (merge_neutral (VMat a) (VMat e)) as [_ H2]. split.
  - now apply H1.
  - apply H2; [|exact Z]. exact (matrix_size _ _ _ MA).
Qed.
