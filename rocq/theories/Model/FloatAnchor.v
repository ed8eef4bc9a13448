(** Choosing start points and the suggestion by acquisition values in double precision: GPyOpt/optimization/anchor_points_generator.py:63-69,
    GPyOpt/optimization/acquisition_optimizer.py:69-78.  Model/Optim.v has the same code on exact numbers, with the designs, contexts and duplicates
    that are left out here.  Definitions only. *)
From Coq Require Import List Bool.
From Flocq Require Import IEEE754.BinarySingleNaN.
From Verif.Model Require Import Py Float FloatAcq Optim.
Import ListNotations.

(** anchor_points_generator.py:65-69: [scores] of the rows X, [order] what np.argsort returns *)
Definition anchors_f {A} (X : list A) (scores : list float) (order : list nat) (num : nat) : res (list A) :=
  mapM (get X) (firstn (Nat.min (length scores) num) order).
(** acquisition_optimizer.py:74 Python's min with a key: a later element is taken when its key is smaller *)
Fixpoint pick_from {A} (best : A * float) (pts : list (A * float)) : A * float :=
  match pts with [] => best | p :: t => if flt (snd p) (snd best) then pick_from p t else pick_from best t end.
Definition pick_f {A} (pts : list (A * float)) : res (A * float) := match pts with [] => Raise ValueError | p :: t => Ok (pick_from p t) end.
(** acquisition_optimizer.py:69-78 on the candidates [X] of the design; [score] the acquisition function, [local k] the point that apply_optimizer
    returns for the k-th start point (optimizer.py:133-171 evaluates the acquisition there) *)
Definition optimize_f {A} (X : list A) (score : A -> float) (argsort : list float -> list nat) (local : nat -> A -> res A) : res (A * float) :=
  anchors <- anchors_f X (map score X) (argsort (map score X)) 5 ;;
  pts <- mapMi (fun k x0 => x <- local k x0 ;; Ok (x, score x)) 0 anchors ;;
  pick_f pts.
(** EI weighted by feasibility and cost, as the optimizer sees it (acquisitions/base.py:33-40, EI.py:32-40); mean, deviation, feasibility and cost
    of a location are what the surrogate, the space and the cost model return *)
Record beliefs (A : Type) := mk_beliefs { b_mean : A -> float; b_dev : A -> float; b_feasible : A -> bool; b_cost : A -> float }.
Arguments b_mean {A}. Arguments b_dev {A}. Arguments b_feasible {A}. Arguments b_cost {A}. Arguments mk_beliefs {A}.
Definition ei_score {A} (L : libm) (par fmin : float) (B : beliefs A) (x : A) : float :=
  weighted_f (ei_f L par fmin (b_mean B x) (b_dev B x)) (indicator_of (b_feasible B x)) (b_cost B x).
