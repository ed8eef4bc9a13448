(** What the benchmark functions draw of themselves: GPyOpt/objective_examples/experiments1d.py:13-20 and experiments2d.py:20-45.
    Definitions only.  Labels, colours, titles and windows are not described. *)
From Coq Require Import List ZArith Reals.
From Verif.Model Require Import Py Bench Plot.
Import ListNotations.
Local Open Scope R_scope.

(** np.arange(lo, hi, 0.01): ceil((hi - lo) / 0.01) points *)
Definition arange100 (lo hi : R) : list R :=
  map (fun i => lo + INR i * / 100) (seq 0 (Z.to_nat (- Int_part (- ((hi - lo) * 100))))).
(** plt.plot(X, Y) with a vector X and the array Y that f returns: one curve for each column of Y; ValueError when the lengths differ.
    [curves X Y] lists the points of the curve of a single column.  Simplification: a Y of several columns is outside the model. *)
Definition curves (X : list R) (Y : list (list R)) : res (list (R * R)) :=
  if Nat.eqb (length X) (length Y) then
    mapM (fun p => match snd p with [y] => Ok (fst p, y) | _ => Raise OutOfModel end) (combine X Y)
  else Raise ValueError.
(** experiments1d.py:13-20 function1d.plot(bounds): [own] is self.bounds[0], [given] the argument's first entry, [noise] the draws of f *)
Definition plot1d (f : R -> R) (own : R * R) (given : option (R * R)) (noise : option (list R)) : res (list (R * R)) :=
  let b := match given with None => own | Some b => b end in
  let X := arange100 (fst b) (snd b) in
  curves X (values (fun row => match row with [x] => f x | _ => 0 end) true (map (fun x => [x]) X) noise).

(** np.linspace(lo, hi, 100) *)
Definition linspace100 (lo hi : R) : list R := map (fun i => lo + INR i * ((hi - lo) / 99)) (seq 0 100).
(** A.reshape((100,100)): ValueError unless A has 10000 entries *)
Definition square100 (l : list R) : res (list (list R)) :=
  if Nat.eqb (length l) (100 * 100) then Ok (reshape 100 100 l) else Raise ValueError.
(** experiments2d.py:37-40 the marked points: all of self.min when it has more than one entry, otherwise its first; IndexError when empty *)
Definition marks (m : list (R * R)) : res (list (R * R)) :=
  if Nat.ltb 1 (length m) then Ok m else match m with [] => Raise IndexError | p :: _ => Ok [p] end.
(** experiments2d.py:20-45 function2d.plot: the matrices X1, X2, Z handed to plt.contourf(X1, X2, Z, 100) and the points marked *)
Definition plot2d (f : R -> R -> R) (b1 b2 : R * R) (m : list (R * R)) (noise : option (list R))
  : res (list (list R) * list (list R) * list (list R) * list (R * R)) :=
  let x1 := linspace100 (fst b1) (snd b1) in
  let x2 := linspace100 (fst b2) (snd b2) in
  let X := mesh x1 x2 in
  X1 <- square100 (map fst X) ;;
  X2 <- square100 (map snd X) ;;
  Z <- square100 (concat (values (fun row => match row with [x; y] => f x y | _ => 0 end) true (map (fun p => [fst p; snd p]) X) noise)) ;;
  ps <- marks m ;;
  Ok (X1, X2, Z, ps).

(** experiments2d.py:57-59, 88-90, 119-121, 150-152, 183-199, 228-230, 268-270, 305-307, 342-344: the default bounds and recorded minima of
    the functions that have a plot, in the order of the file *)
Definition defaults2d : list ((R * R) * (R * R) * list (R * R)) :=
  [ ((-5/10, 3), (-15/10, 2), [(1, 1)]);
    ((-1, 1), (-1, 1), [(0, 0)]);
    ((-1, 1), (-1, 1), [(0, 0)]);
    ((0, 1), (0, 1), [(31426205/100000000, 30249864/100000000)]);
    ((-5, 10), (1, 15), [(- PI, 12275/1000); (PI, 2275/1000); (942478/100000, 2475/1000)]);
    ((-2, 2), (-2, 2), [(0, -1)]);
    ((-2, 2), (-1, 1), [(898/10000, - (7126/10000)); (- (898/10000), 7126/10000)]);
    ((-15/10, 4), (-3, 4), [(- (54719/100000), - (154719/100000))]);
    ((-1, 1), (-1, 1), [(0, 0)]) ].
