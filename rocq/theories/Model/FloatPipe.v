(** From the design to the suggestion on rows of doubles: GPyOpt/experiment_design/random_design.py:37-77, GPyOpt/core/task/space.py:206-250 (zip and unzip),
    GPyOpt/optimization/anchor_points_generator.py:22-69, GPyOpt/optimization/optimizer.py:133-171, GPyOpt/core/bo.py:150-153 and 223-244 with the sequential
    evaluator.  Spaces without bandit variables, no context, no constraints; the categories of a categorical variable are 0, ..., n-1.  Model/Optim.v has the
    same code on exact numbers, with all of these.  Definitions only. *)
From Coq Require Import List ZArith Bool.
From Flocq Require Import IEEE754.BinarySingleNaN.
From Verif.Model Require Import Py Float FloatRow FloatDup FloatAnchor Optim.
Import ListNotations.

(** Python's int(x) of a double *)
Definition int_of (x : float) : res Z :=
  match x with
  | B754_zero _ => Ok 0%Z
  | B754_finite s m e _ => let a := (if (0 <=? e)%Z then Zpos m * 2 ^ e else Zpos m / 2 ^ (- e))%Z in Ok (if s then - a else a)%Z
  | B754_infinity _ => Raise OverflowError
  | B754_nan => Raise ValueError
  end.
(** variables.py:38-43, 199-202 objective_to_model; the assignment entry[i] = 1 accepts negative positions as Python lists do *)
Definition to_model (k : fkind) (x : float) : res (list float) :=
  match k with
  | FCat n =>
      i <- int_of x ;;
      let p := if (i <? 0)%Z then (i + Z.of_nat n)%Z else i in
      if ((0 <=? p) && (p <? Z.of_nat n))%Z then Ok (map (fun j => of_Z (if Nat.eqb j (Z.to_nat p) then 1 else 0)) (seq 0 n)) else Raise IndexError
  | _ => Ok [x]
  end.
(** space.py:206-226 objective_to_model, unzip_inputs of one row *)
Fixpoint unzip_f (ks : list fkind) (row : list float) : res (list float) :=
  match ks, row with
  | [], _ => Ok []
  | _ :: _, [] => Raise IndexError
  | k :: ks', x :: row' => b <- to_model k x ;; r <- unzip_f ks' row' ;; Ok (b ++ r)
  end.
(** variables.py:45-50, 204-208 model_to_objective of the columns of the variable *)
Definition to_objective (k : fkind) (b : list float) : res float :=
  match k with
  | FCat n => Ok (fold_left (fun s jx => fadd s (fmul (of_Z (Z.of_nat (fst jx))) (snd jx))) (combine (seq 0 n) b) f0)
  | _ => get b 0
  end.
(** space.py:228-250 zip_inputs, model_to_objective of one row *)
Fixpoint zip_f (ks : list fkind) (x : list float) : res (list float) :=
  match ks with
  | [] => Ok []
  | k :: ks' => a <- to_objective k (firstn (fwidth k) x) ;; r <- zip_f ks' (skipn (fwidth k) x) ;; Ok (a :: r)
  end.

(** space.py:352-360 get_continuous_bounds *)
Definition cont_bounds (ks : list fkind) : list (float * float) := flat_map (fun k => match k with FCont lo hi => [(lo, hi)] | _ => [] end) ks.
(** random_design.py:37-46, 61-63 one row: [c k] is the position np.random.choice takes in the domain of the k-th variable, [cont] the row of uniform draws *)
Fixpoint fill_row (ks : list fkind) (k : nat) (c : nat -> nat) (cont : list float) : res (list float) :=
  match ks with
  | [] => Ok []
  | FCont _ _ :: ks' => match cont with [] => Raise IndexError | x :: cont' => r <- fill_row ks' (S k) c cont' ;; Ok (x :: r) end
  | FDisc dom :: ks' => x <- get dom (c k) ;; r <- fill_row ks' (S k) c cont ;; Ok (x :: r)
  | FCat n :: ks' => i <- get (seq 0 n) (c k) ;; r <- fill_row ks' (S k) c cont ;; Ok (of_Z (Z.of_nat i) :: r)
  end.
(** random_design.py:56-65 get_samples_without_constraints *)
Definition random_design_f (ks : list fkind) (u : nat -> nat -> float) (c : nat -> nat -> nat) (n : nat) : res (list (list float)) :=
  rows <- samples_uniform u (cont_bounds ks) n ;; mapMi (fun i cont => fill_row ks 0 (c i) cont) 0 rows.

(** duplicate_manager.py:38-42 is_unzipped_x_duplicate; [known] the evaluated rows, None without de-duplication *)
Definition duplicate_of (ks : list fkind) (known : option (list (list float))) (x : list float) : res bool :=
  match known with None => Ok false | Some X => z <- zip_f ks x ;; Ok (is_duplicate_f X None None z) end.
(** optimizer.py:155-171 apply_optimizer; [local] is the point the local optimizer returns *)
Definition apply_f (ks : list fkind) (known : option (list (list float))) (local : nat -> list float -> res (list float)) (k : nat) (x0 : list float) : res (list float) :=
  d0 <- duplicate_of ks known x0 ;;
  if d0 then Raise ValueError
  else x <- local k x0 ;; r <- round_optimum_f ks x ;; d <- duplicate_of ks known r ;; Ok (if d then x0 else r).
(** anchor_points_generator.py:54-59 the candidates that are not duplicates *)
Fixpoint fresh_rows (ks : list fkind) (known : option (list (list float))) (X : list (list float)) : res (list (list float)) :=
  match X with
  | [] => Ok []
  | x :: t => d <- duplicate_of ks known x ;; r <- fresh_rows ks known t ;; Ok (if d : bool then r else x :: r)
  end.
(** anchor_points_generator.py:36-69, acquisition_optimizer.py:57-78 and bo.py:243 *)
Definition suggest_f (ks : list fkind) (known : option (list (list float))) (score : list float -> float) (argsort : list float -> list nat)
    (local : nat -> list float -> res (list float)) (design : list (list float)) : res (list float) :=
  X <- mapM (unzip_f ks) design ;; X <- fresh_rows ks known X ;;
  match X with
  | [] => Raise FullyExplored
  | _ => p <- optimize_f X score argsort (apply_f ks known local) ;; zip_f ks (fst p)
  end.

(** What the acquisition and the generators contribute to one iteration *)
Record acquiring := mk_acquiring { a_score : list float -> float; a_argsort : list float -> list nat; a_local : nat -> list float -> res (list float); a_design : list (list float) }.
(** bo.py:140-153, the rows: [n] iterations, each adding its suggestion; [A X] is what happens when the rows X have been evaluated *)
Fixpoint acquire_f (ks : list fkind) (de_duplication : bool) (A : list (list float) -> acquiring) (n : nat) (X : list (list float)) : res (list (list float)) :=
  match n with
  | O => Ok X
  | S n' =>
      let a := A X in
      x <- suggest_f ks (if de_duplication then Some X else None) (a_score a) (a_argsort a) (a_local a) (a_design a) ;;
      acquire_f ks de_duplication A n' (X ++ [x])
  end.
