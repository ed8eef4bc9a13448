(** Constraint expressions as conditions on one location. *)
From Coq Require Import List ZArith QArith Qcanon Bool.
From Verif.Model Require Import Py Space Ieee Constraints.
Import ListNotations.

(** What an expression stands for at one location: nothing but a constant, one number per location, or a row per location.  An expression
    that mentions single rows, or combines a column with a whole matrix, is none of these. *)
Inductive kind := Constant | PerLocation | PerCoordinate.
Fixpoint kind_of (e : cexpr) : option kind :=
  match e with
  | ENum _ => Some Constant
  | EX => Some PerCoordinate
  | ECol _ => Some PerLocation
  | ERow _ | EAt _ _ => None
  | EUn _ a => kind_of a
  | EBin _ a b =>
      match kind_of a, kind_of b with
      | Some Constant, k => k
      | k, Some Constant => k
      | Some PerLocation, Some PerLocation => Some PerLocation
      | Some PerCoordinate, Some PerCoordinate => Some PerCoordinate
      | _, _ => None
      end
  | ERed _ a => match kind_of a with Some PerCoordinate => Some PerLocation | _ => None end
  end.
(** The columns mentioned exist in a matrix with [w] columns. *)
Fixpoint columns_exist (w : nat) (e : cexpr) : Prop :=
  match e with
  | ECol i => (- Z.of_nat w <= i < Z.of_nat w)%Z
  | EUn _ a | ERed _ a => columns_exist w a
  | EBin _ a b => columns_exist w a /\ columns_exist w b
  | _ => True
  end.
(** The value at one location: a number or one number per coordinate.  A negative column counts from the end. *)
Inductive here := One (v : num) | Each (l : list num).
Definition the_one (h : here) : num := match h with One v => v | Each l => nth 0 l NaN end.
Fixpoint value_at (row : vec) (e : cexpr) : here :=
  match e with
  | ENum v => One v
  | EX => Each (map Fin row)
  | ECol i => One (Fin (nth (Z.to_nat (if (i <? 0)%Z then i + Z.of_nat (length row) else i)%Z) row 0%Qc))
  | ERow _ | EAt _ _ => One NaN
  | EUn g a => match value_at row a with One v => One (g v) | Each l => Each (map g l) end
  | EBin g a b =>
      match value_at row a, value_at row b with
      | One u, One v => One (g u v)
      | One u, Each l => Each (map (g u) l)
      | Each l, One v => Each (map (fun u => g u v) l)
      | Each l, Each l' => Each (map (fun p => g (fst p) (snd p)) (combine l l'))
      end
  | ERed g a => match value_at row a with One v => One v | Each l => One (g l) end
  end.
(** "expression <= 0" at a location; NaN is not <= 0. *)
Definition holds_at (row : vec) (e : cexpr) : Prop :=
  match the_one (value_at row e) with NaN | PInf => False | NInf => True | Fin v => (v <= 0)%Qc end.
(** The constraint dictionary of Model/Space.v for an expression: a function of the row that is <= 0 exactly where it holds. *)
Definition as_function (e : cexpr) : constr :=
  mk_constr None (Some (fun row => Ok (match the_one (value_at row e) with NaN | PInf => 1%Qc | NInf => (- (1))%Qc | Fin v => v end))).
