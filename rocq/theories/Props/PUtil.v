(** C44, C45: normalize, merge_values.  Specification: Spec/UtilSpec.v.  Model: Model/Util.v. *)
From Coq Require Import String List Bool Arith Lia.
From Coq Require Import Reals Lra.
From Verif.Model Require Import Py Util.
From Verif.Spec Require Import RSpec UtilSpec.
From Verif.Proof Require Import UtilP.
Import ListNotations.

(** ---------------------------------------------------------------- C44 *)
Theorem C44_stats : forall shape Y, Y <> [] -> vector_shape shape (length Y) ->
  exists N, normalize shape Y "stats" = Ok N /\ average N = 0%R /\ order_preserving Y N /\
    (~ constant Y -> deviation N = 1%R) /\ (constant Y -> Forall (fun y => y = 0%R) N).
Proof. exact normalize_stats_vec. Qed.
Print Assumptions C44_stats.
Theorem C44_maxmin : forall shape Y, Y <> [] -> vector_shape shape (length Y) ->
  exists N, normalize shape Y "maxmin" = Ok N /\ order_preserving Y N /\
    (~ constant Y -> Forall (fun y => (-1 <= y <= 1)%R) N /\ In (-1)%R N /\ In 1%R N) /\ (constant Y -> Forall (fun y => y = 0%R) N).
Proof. exact normalize_maxmin_vec. Qed.
Print Assumptions C44_maxmin.
(** Arrays of more than one row and column are refused, and so are unknown types. *)
Theorem C44_rejects : forall shape Y t,
  ((forall k, In k shape -> k < length Y) -> Y <> [] -> normalize shape Y t = Raise NotImplementedError) /\
  (vector_shape shape (length Y) -> Y <> [] -> t <> "stats"%string -> t <> "maxmin"%string -> normalize shape Y t = Raise ValueError).
Proof. exact normalize_rejects_vec. Qed.
Print Assumptions C44_rejects.
Example C44_nonvacuous : vector_shape [3; 1] (length [1%R; 5%R; 2%R]) /\ ~ constant [1%R; 5%R; 2%R].
Proof.
  split; [split; [now left|intros k [<-|[<-|[]]]; auto]|]. intros C. specialize (C 1%R 5%R ltac:(now left) ltac:(right; now left)). lra.
Qed.

(** ---------------------------------------------------------------- C45 *)
Theorem C45_product : forall A (a b : list (list A)) n d n' d', matrix a n d -> matrix b n' d' ->
  matrix (merge_values (VMat a) (VMat b)) (n * n') (d + d') /\
  forall i j, i < n -> j < n' -> nth (i * n' + j) (merge_values (VMat a) (VMat b)) [] = nth i a [] ++ nth j b [].
Proof. exact @merge_matrices. Qed.
Print Assumptions C45_product.
(** Tuples are columns, arrays with one axis are rows, numbers are one by one. *)
Theorem C45_kinds : forall A (v w : values A) rv rw,
  (forall u r, (u, r) = (v, rv) \/ (u, r) = (w, rw) ->
     (exists l, u = VTuple l /\ r = map (fun a => [a]) l) \/ (exists l, u = VRow l /\ r = [l]) \/ (exists a, u = VNum a /\ r = [[a]]) \/ u = VMat r) ->
  merge_values v w = merge_values (VMat rv) (VMat rw).
Proof. exact @merge_kinds. Qed.
Print Assumptions C45_kinds.
Theorem C45_empty_is_neutral : forall A (a : list (list A)) n d e, matrix a n d -> (forall r, In r e -> r = []) ->
  merge_values (VMat e) (VMat a) = a /\ merge_values (VMat a) (VMat e) = a.
Proof. exact @merge_empty. Qed.
Print Assumptions C45_empty_is_neutral.
Theorem C45_associative : forall A (u v w : values A),
  merge_values (VMat (merge_values u v)) w = merge_values u (VMat (merge_values v w)).
Proof. exact @merge_assoc. Qed.
Print Assumptions C45_associative.
Example C45_nonvacuous : matrix [[1; 2]; [3; 4]] 2 2 /\ matrix [[5]; [6]; [7]] 3 1 /\
  merge_values (VMat [[1; 2]; [3; 4]]) (VTuple [5; 6; 7]) = [[1; 2; 5]; [1; 2; 6]; [1; 2; 7]; [3; 4; 5]; [3; 4; 6]; [3; 4; 7]].
Proof.
  assert (M : forall m (n d : nat), forallb (fun r : list nat => length r =? d) m = true -> length m = n -> 0 < n -> 0 < d -> matrix m n d).
  { intros m n d F L N D. repeat split; auto. intros r I. rewrite forallb_forall in F. apply Nat.eqb_eq. now apply F. }
  repeat split; try (apply M; auto); cbn; try lia; intros r; cbn; intuition (subst; reflexivity).
Qed.
