(** The acquisition the optimizer sees: weighted by the cost and multiplied by the indicator of the constraints. *)
From Coq Require Import String List ZArith QArith Qcanon Bool.
From Verif.Model Require Import Py Space Design Optim.
Import ListNotations.
Local Open Scope nat_scope.

(** acquisitions/base.py:39, 51 the row the constraints are evaluated at: the model row itself when the two dimensions agree,
    otherwise its user-space form *)
Definition constrained_row (sp : space) (x : vec) : res mat :=
  if Nat.eqb (model_dimensionality sp) (objective_dimensionality sp) then Ok [x] else zip_inputs sp [x].
Definition indicator_at (sp : space) (x : vec) : res Qc :=
  z <- constrained_row sp x ;; I <- indicator_constraints sp z ;; get I 0.

(** acquisitions/base.py:33-40 acquisition_function for one row.  [raw] is _compute_acq, [cost] the first component of
    cost_withGradients.  A cost of 0 (an infinite or undefined value in numpy) is not described: all theorems assume
    positive costs. *)
Definition acquisition_function (sp : space) (raw cost : acqf) : acqf := fun x =>
  f <- raw x ;; c <- cost x ;; i <- indicator_at sp x ;; Ok (- (f * i) / c)%Qc.

(** acquisitions/base.py:43-52 acquisition_function_withGradients for one row *)
Definition acquisition_function_withGradients (sp : space) (raw cost : acqg) : acqg := fun x =>
  f <- raw x ;; c <- cost x ;; i <- indicator_at sp x ;;
  Ok ((- (fst f / fst c) * i)%Qc,
      map (fun p => (- ((fst p * fst c - fst f * snd p) / (fst c * fst c)) * i)%Qc) (combine (snd f) (snd c))).

(** acquisitions/LCB.py:35-41 _compute_acq; [predict] is model.predict *)
Definition lcb_raw (weight : Qc) (predict : vec -> res (Qc * Qc)) : acqf := fun x =>
  p <- predict x ;; Ok (- fst p + weight * snd p)%Qc.
