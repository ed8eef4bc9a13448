(** GPyOpt/util/general.py: normalize, merge_values.  Definitions only.  normalize works on real numbers. *)
From Coq Require Import String List Bool Arith.
From Coq Require Import Reals.
From Verif.Model Require Import Py.
Import ListNotations.
Local Open Scope string_scope.

(** ---- general.py:168-180 values_to_array.  The kinds of arguments: a tuple of numbers, an array with one axis, an array
    with two axes, a number (everything that is not a tuple or an array goes through np.atleast_2d(np.array(..))). *)
Inductive values (A : Type) := VTuple (l : list A) | VRow (l : list A) | VMat (m : list (list A)) | VNum (a : A).
Arguments VTuple {A} l. Arguments VRow {A} l. Arguments VMat {A} m. Arguments VNum {A} a.
Definition values_to_array {A} (v : values A) : list (list A) :=
  match v with
  | VTuple l => map (fun a => [a]) l        (* reshape(-1,1) *)
  | VRow l => [l]                           (* np.atleast_2d *)
  | VMat m => m
  | VNum a => [[a]]
  end.
(** ndarray.size *)
Definition array_size {A} (m : list (list A)) : nat := fold_right (fun r n => length r + n) 0 m.

(** ---- general.py:183-200 merge_values *)
Definition merge_values {A} (values1 values2 : values A) : list (list A) :=
  let array1 := values_to_array values1 in
  let array2 := values_to_array values2 in
  if Nat.eqb (array_size array1) 0 then array2 else
  if Nat.eqb (array_size array2) 0 then array1 else
  flat_map (fun row_array1 => map (fun row_array2 => (row_array1 ++ row_array2)%list) array2) array1.

(** ---- general.py:203-234 normalize, on an array given by its shape and its entries. *)
Local Open Scope R_scope.
Definition total (l : list R) : R := fold_right Rplus 0 l.
Definition mean (l : list R) : R := total l / INR (List.length l).
(** ndarray.std with ddof = 0 *)
Definition std (l : list R) : R := sqrt (mean (map (fun y => (y - mean l) * (y - mean l)) l)).
Definition lmin (l : list R) : R := match l with [] => 0 | a :: l' => fold_left Rmin l' a end.
Definition lmax (l : list R) : R := match l with [] => 0 | a :: l' => fold_left Rmax l' a end.
Definition normalize (shape : list nat) (Y : list R) (normalization_type : string) : res (list R) :=
  if negb (Nat.eqb (fold_right Nat.max 0%nat shape) (List.length Y)) then Raise NotImplementedError else
  if String.eqb normalization_type "stats" then
    let Y_norm := map (fun y => y - mean Y) Y in
    Ok (if Rlt_dec 0 (std Y) then map (fun y => y / std Y) Y_norm else Y_norm)
  else if String.eqb normalization_type "maxmin" then
    let Y_norm := map (fun y => y - lmin Y) Y in
    let y_range := lmax Y - lmin Y in
    Ok (if Rlt_dec 0 y_range then map (fun y => 2 * (y / y_range - / 2)) Y_norm else Y_norm)
  else Raise ValueError.
