(** The entropy search acquisition as the acquisition optimizer sees it: the check of the dimension.  Definitions only. *)
From Coq Require Import String List ZArith QArith Qcanon Bool.
From Verif.Model Require Import Py Space Design Optim Masked.
Import ListNotations.
Local Open Scope nat_scope.

(** acquisitions/ES.py:47 the constructor stores space.input_dim(); :127-129 _compute_acq compares the number of columns
    with it.  [value] is the rest of _compute_acq for one row. *)
Definition es_raw (dim : nat) (value : acqf) : acqf := fun x =>
  if negb (Nat.eqb (length x) dim) then Raise ValueError else value x.
(** the acquisition function of an AcquisitionEntropySearch on the space [sp]; the constructor fails when input_dim does *)
Definition es_acquisition (sp : space) (value cost : acqf) : res acqf :=
  dim <- input_dim sp ;; Ok (acquisition_function sp (es_raw dim value) cost).
