(** The parts of the code that compute with coordinates and values, in double precision: binary64 of IEEE 754 with
    rounding to nearest even, as numpy computes.  Definitions only.  The float type and its operations are those of
    Flocq's IEEE754.BinarySingleNaN; signs and payloads of NaNs are not modelled. *)
From Coq Require Import List ZArith Bool SpecFloat.
From Flocq Require Import Core IEEE754.BinarySingleNaN.
From Verif.Model Require Import Py.
Import ListNotations.
Local Open Scope nat_scope.

Definition float := binary_float 53 1024.
Definition prec53 : Prec_gt_0 53 := eq_refl.
Definition emax1024 : Prec_lt_emax 53 1024 := eq_refl.
Definition fadd : float -> float -> float := Bplus (prec_gt_0_ := prec53) (prec_lt_emax_ := emax1024) mode_NE.
Definition fsub : float -> float -> float := Bminus (prec_gt_0_ := prec53) (prec_lt_emax_ := emax1024) mode_NE.
Definition fmul : float -> float -> float := Bmult (prec_gt_0_ := prec53) (prec_lt_emax_ := emax1024) mode_NE.
Definition fdiv : float -> float -> float := Bdiv (prec_gt_0_ := prec53) (prec_lt_emax_ := emax1024) mode_NE.
Definition fsqrt : float -> float := Bsqrt (prec_gt_0_ := prec53) (prec_lt_emax_ := emax1024) mode_NE.
Definition fabs : float -> float := Babs.
Definition flt : float -> float -> bool := Bltb.
Definition feq : float -> float -> bool := Beqb.
Definition finite : float -> bool := is_finite.
Definition nan_p : float -> bool := is_nan.
(** an integer as a double *)
Definition of_Z (n : Z) : float := binary_normalize 53 1024 prec53 emax1024 mode_NE n 0 false.
(** m * 2^e as a double, for literals *)
Definition lit (m e : Z) : float := binary_normalize 53 1024 prec53 emax1024 mode_NE m e false.
Definition f0 : float := of_Z 0.

(** np.random.uniform(low, high, size) of numpy's RandomState: the range must be finite (OverflowError); the values are
    low + range * u with u = next_double() in [0, 1).  GPyOpt/experiment_design/random_design.py:67-77 and
    GPyOpt/util/general.py:64-73 samples_multidimensional_uniform; [u i k] is the draw for row i and column k. *)
Definition uniform_range (b : float * float) : res (float * float) :=
  let r := fsub (snd b) (fst b) in if finite r then Ok (fst b, r) else Raise OverflowError.
Definition samples_uniform (u : nat -> nat -> float) (bounds : list (float * float)) (n : nat) : res (list (list float)) :=
  rs <- mapM uniform_range bounds ;;
  Ok (map (fun i => map (fun kr => fadd (fst (snd kr)) (fmul (snd (snd kr)) (u i (fst kr)))) (combine (seq 0 (length rs)) rs)) (seq 0 n)).

(** The affine map of latin_design.py:32-42 (lower_bound + X_design_aux * diff) and sobol_design.py:26-32 (the product with
    the diagonal matrix of diff, whose other terms are zeros for finite diff, plus lower_bound). *)
Definition scale (b : float * float) (x : float) : float := fadd (fst b) (fmul x (fsub (snd b) (fst b))).
Definition samples_scaled (unit : list (list float)) (bounds : list (float * float)) : list (list float) :=
  map (fun row => map (fun bx => scale (fst bx) (snd bx)) (combine bounds row)) unit.

(** np.linspace(start, stop, num) as called by grid_design.py:58-69 multigrid: arange(num) * step + start with
    step = (stop - start) / (num - 1), the last entry replaced by stop; when the step underflows to 0 the quotient is taken
    first. *)
Definition linspace_at (lo hi : float) (num i : nat) : float :=
  let delta := fsub hi lo in
  match num with
  | O => lo
  | S O => fadd (fmul (of_Z 0) delta) lo
  | S div =>
      if Nat.eqb i div then hi
      else let step := fdiv delta (of_Z (Z.of_nat div)) in
           if feq step f0 then fadd (fmul (fdiv (of_Z (Z.of_nat i)) (of_Z (Z.of_nat div))) delta) lo
           else fadd (fmul (of_Z (Z.of_nat i)) step) lo
  end.
Definition linspace (lo hi : float) (num : nat) : list float := map (linspace_at lo hi num) (seq 0 num).

(** variables.py:100-116 ContinuousVariable.round *)
Definition round_continuous (lo hi x : float) : float := if flt x lo then lo else if flt hi x then hi else x.
(** variables.py:175-187 DiscreteVariable.round *)
Definition round_discrete (dom : list float) (x : float) : res float :=
  match dom with
  | [] => Raise IndexError
  | r0 :: _ => Ok (fold_left (fun r v => if flt (fabs (fsub v x)) (fabs (fsub r x)) then v else r) dom r0)
  end.
(** np.argmax and np.argmin: the first greatest (smallest) entry, where a NaN counts as greatest (smallest) *)
Fixpoint arg_from (better : float -> float -> bool) (best : nat) (v : float) (i : nat) (l : list float) : nat :=
  match l with
  | [] => best
  | a :: l' => if negb (nan_p v) && (better a v || nan_p a) then arg_from better i a (S i) l' else arg_from better best v (S i) l'
  end.
Definition argmax_f (l : list float) : res nat := match l with [] => Raise ValueError | a :: l' => Ok (arg_from (fun x y => flt y x) 0 a 1 l') end.
Definition argmin_f (l : list float) : res nat := match l with [] => Raise ValueError | a :: l' => Ok (arg_from flt 0 a 1 l') end.
(** variables.py:219-227 CategoricalVariable.round *)
Definition round_categorical (x : list float) : res (list float) :=
  i <- argmax_f x ;; Ok (map (fun j => of_Z (if Nat.eqb j i then 1 else 0)) (seq 0 (length x))).
(** general.py:204-234 normalize on finite data.  'stats': [m] and [s] are what Y.mean() and Y.std() return. *)
Definition min_f (l : list float) : float := match l with [] => f0 | a :: l' => fold_left (fun b y => if flt y b then y else b) l' a end.
Definition max_f (l : list float) : float := match l with [] => f0 | a :: l' => fold_left (fun b y => if flt b y then y else b) l' a end.
Definition normalize_stats (m s : float) (Y : list float) : list float :=
  map (fun y => let d := fsub y m in if flt f0 s then fdiv d s else d) Y.
Definition normalize_maxmin (Y : list float) : list float :=
  let lo := min_f Y in
  let r := fsub (max_f Y) lo in
  map (fun y => let d := fsub y lo in if flt f0 r then fmul (of_Z 2) (fsub (fdiv d r) (lit 1 (-1))) else d) Y.

(** The literal 1e-10 and the deviation (gpmodel.py:99,112): np.sqrt(np.clip(v, 1e-10, np.inf)) *)
Definition tenth10 : float := lit 7737125245533627 (-86).
Definition deviation (v : float) : float := fsqrt (if flt v tenth10 then tenth10 else v).
