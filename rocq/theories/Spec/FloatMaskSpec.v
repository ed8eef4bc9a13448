(** Suggestions under constraints (Props/PFloatMask.v). *)
From Coq Require Import Reals List ZArith.
From Flocq Require Import IEEE754.BinarySingleNaN.
From Verif.Model Require Import Py Float FloatRow FloatCons FloatPipe FloatReject FloatMask.
From Verif.Spec Require Import FloatSpec FloatAcqSpec FloatAnchorSpec FloatPipeSpec FloatConsSpec FloatRejectSpec.
Import ListNotations.
Local Open Scope R_scope.

(** Categorical variables have at least two categories. *)
Definition several (ks : list fkind) : Prop := forall n, In (FCat n) ks -> (2 <= n)%nat.
(** Continuous variables only. *)
Definition continuous (ks : list fkind) : Prop := forall k, In k ks -> exists lo hi, k = FCont lo hi.
(** Rows of a random design under the constraints. *)
Definition drawn (ks : list fkind) (es : list fexpr) (rows : list (list float)) : Prop :=
  exists fuel u c n, fair ks u c /\ get_samples_f fuel ks es u c n = Some (Ok rows).
(** The acquisition divided by the cost is positive, also after rounding to a double. *)
Definition worthwhile (raw cost : list float -> float) (x : list float) : Prop := number (raw x) /\ 0 <= val (raw x) /\ nearest (val (raw x) / val (cost x)) <> 0.
(** An iteration under constraints: the masked acquisition with positive costs, candidates drawn under the constraints where the acquisition is positive, and
    a local optimizer whose rounded result is never worse than its start. *)
Definition careful (ks : list fkind) (es : list fexpr) (a : acquiring) : Prop :=
  exists raw cost, a_score a = masked_f ks es raw cost /\ (forall x, number (cost x) /\ 0 < val (cost x)) /\
    drawn ks es (a_design a) /\ (forall row x, In row (a_design a) -> unzip_f ks row = Ok x -> worthwhile raw cost x) /\ never_worse (a_score a) (rounded_local ks (a_local a)).
