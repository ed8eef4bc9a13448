(** What is asked of the surroundings of a run on doubles. *)
From Coq Require Import List.
From Verif.Model Require Import Py Float FloatRow FloatPipe FloatRun.
From Verif.Spec Require Import FloatSpec FloatPipeSpec.

(** Sensible variables; whatever the data, the generator gives configurations, np.argsort sorts and the local optimizer returns no NaN. *)
Definition ordinary_run (E : fenv) : Prop := fspace (v_kinds E) /\ forall X Y a, v_fit E X Y = Some a -> ordinary (v_kinds E) a.
(** [Y] holds the value of f at each row of [X]. *)
Definition answers (f : list float -> res float) (X : list (list float)) (Y : list float) : Prop := Forall2 (fun x y => f x = Ok y) X Y.
(** f is never NaN on a configuration. *)
Definition never_nan (E : fenv) : Prop := forall x v, configuration (v_kinds E) x -> v_f E x = Ok v -> nan_p v = false.
