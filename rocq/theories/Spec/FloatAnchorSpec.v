(** What np.argsort does, and what is asked of local optimisers (Props/PFloatAnchor.v). *)
From Coq Require Import List ZArith Bool Reals Permutation.
From Flocq Require Import Core IEEE754.BinarySingleNaN.
From Verif.Model Require Import Py Float FloatAcq FloatAnchor.
From Verif.Spec Require Import FloatSpec.
Import ListNotations.
Local Open Scope R_scope.

(** [a] may stand before [b] in a sorted array: NaN is last, and among the others nothing stands after something smaller *)
Definition before (a b : float) : Prop := nan_p b = true \/ (nan_p a = false /\ flt b a = false).
(** [order] is a permutation of the positions that sorts the scores; which one, among equal scores, is left open *)
Definition sorts (scores : list float) (order : list nat) : Prop :=
  Permutation order (seq 0 (length scores)) /\
  forall p q i j a b, (p < q)%nat -> nth_error order p = Some i -> nth_error order q = Some j -> nth_error scores i = Some a -> nth_error scores j = Some b ->
    before a b.
(** From a start whose value is not NaN no worse point, and none with the value NaN, is returned *)
Definition never_worse {A} (score : A -> float) (local : nat -> A -> res A) : Prop :=
  forall k x0 x, local k x0 = Ok x -> nan_p (score x0) = false -> nan_p (score x) = false /\ flt (score x0) (score x) = false.
(** Mean and deviation are numbers, costs positive numbers *)
Definition sound {A} (B : beliefs A) : Prop :=
  forall x, number (b_mean B x) /\ number (b_dev B x) /\ number (b_cost B x) /\ 0 < val (b_cost B x).
(** A location that can be evaluated and is predicted at least as good as the incumbent less the jitter, at a cost up to 2^1000 *)
Definition promising {A} (L : libm) (par fmin : float) (B : beliefs A) (x : A) : Prop :=
  b_feasible B x = true /\ val (b_cost B x) <= bpow radix2 1000 /\ number (ei_f L par fmin (b_mean B x) (b_dev B x)) /\
  number (quantile_u par fmin (b_mean B x) (clipped (b_dev B x))) /\ 0 <= val (quantile_u par fmin (b_mean B x) (clipped (b_dev B x))).
