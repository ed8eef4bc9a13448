(** Samples for which nothing overflows, and the sizes the errors are measured in (Props/PFloatMcmc.v). *)
From Coq Require Import Reals List ZArith.
From Flocq Require Import Core IEEE754.BinarySingleNaN.
From Verif.Model Require Import Float FloatAcq FloatMcmc.
From Verif.Spec Require Import FloatSpec FloatAccSpec.
Import ListNotations.
Local Open Scope R_scope.

(** at least one and at most 2^40 samples *)
Definition counted {A} (qs : list A) : Prop := qs <> [] /\ (Z.of_nat (length qs) <= 2 ^ 40)%Z.
(** all predictions have a size of at most 2^900 *)
Definition moderate_sample (q : sample_f) : Prop := moderate (s_mean q) /\ moderate (s_dev q) /\ moderate (s_fmin q).
(** the deviation that is used: at least 1e-10 *)
Definition dev (q : sample_f) : R := Rmax (val (s_dev q)) floor10.
(** the sizes of minimum, mean and jitter *)
Definition reach (par : float) (q : sample_f) : R := size3 (s_fmin q) (s_mean q) par.
