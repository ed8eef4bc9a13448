(** The benchmark functions: GPyOpt/objective_examples.  Definitions only.  Each definition is the value for one row without noise;
    real numbers instead of floating point. *)
From Coq Require Import Reals List.
Import ListNotations.
Local Open Scope R_scope.

(** experiments2d.py:65-76 *)
Definition rosenbrock (x1 x2 : R) : R := 100 * (x2 - x1 ^ 2) ^ 2 + (x1 - 1) ^ 2.
(** experiments2d.py:96-107 *)
Definition beale (x1 x2 : R) : R := - (100 * (x2 - x1 ^ 2) ^ 2 + (x1 - 1) ^ 2).
(** experiments2d.py:127-138 *)
Definition dropwave (x1 x2 : R) : R := - (- (1 + cos (12 * sqrt (x1 ^ 2 + x2 ^ 2))) / (5 / 10 * (x1 ^ 2 + x2 ^ 2) + 2)).
(** experiments2d.py:158-171 *)
Definition cosines (x1 x2 : R) : R :=
  let u := 16 / 10 * x1 - 5 / 10 in
  let v := 16 / 10 * x2 - 5 / 10 in
  - (1 - (u ^ 2 + v ^ 2 - 3 / 10 * cos (3 * PI * u) - 3 / 10 * cos (3 * PI * v))).
(** experiments2d.py:181-216, with the default coefficients *)
Definition branin (x1 x2 : R) : R :=
  1 * (x2 - (51 / 10) / (4 * PI ^ 2) * x1 ^ 2 + 5 / PI * x1 - 6) ^ 2 + 10 * (1 - 1 / (8 * PI)) * cos x1 + 10.
(** experiments2d.py:236-255 *)
Definition goldstein (x1 x2 : R) : R :=
  let fact1a := (x1 + x2 + 1) ^ 2 in
  let fact1b := 19 - 14 * x1 + 3 * x1 ^ 2 - 14 * x2 + 6 * x1 * x2 + 3 * x2 ^ 2 in
  let fact1 := 1 + fact1a * fact1b in
  let fact2a := (2 * x1 - 3 * x2) ^ 2 in
  let fact2b := 18 - 32 * x1 + 12 * x1 ^ 2 + 48 * x2 - 36 * x1 * x2 + 27 * x2 ^ 2 in
  let fact2 := 30 + fact2a * fact2b in
  fact1 * fact2.
(** experiments2d.py:276-292 *)
Definition sixhumpcamel (x1 x2 : R) : R :=
  let term1 := (4 - 21 / 10 * x1 ^ 2 + x1 ^ 4 / 3) * x1 ^ 2 in
  let term2 := x1 * x2 in
  let term3 := (- 4 + 4 * x2 ^ 2) * x2 ^ 2 in
  term1 + term2 + term3.
(** experiments2d.py:313-330 *)
Definition mccormick (x1 x2 : R) : R := sin (x1 + x2) + (x1 - x2) ^ 2 + - (15 / 10) * x1 + 25 / 10 * x2 + 1.
(** experiments2d.py:350-363 *)
Definition powers (x1 x2 : R) : R := Rabs x1 ^ 2 + Rabs x2 ^ 3.

(** experiments2d.py:376-392; class at 365 *)
Definition eggholder (x1 x2 : R) : R :=
  - (x2 + 47) * sin (sqrt (Rabs (x2 + x1 / 2 + 47))) + - x1 * sin (sqrt (Rabs (x1 - (x2 + 47)))).

Definition lsum (l : list R) : R := fold_right Rplus 0 l.
Definition lprod (l : list R) : R := fold_right Rmult 1 l.
(** experimentsNd.py:28-36 *)
Definition alpine1 (x : list R) : R := lsum (map (fun v => Rabs (v * sin v + 1 / 10 * v)) x).
(** experimentsNd.py:59-67: the last entry of a cumulative product is the product *)
Definition alpine2 (x : list R) : R := - (lprod (map sqrt x) * lprod (map sin x)).
(** experimentsNd.py:90-98; [a] the coefficients *)
Definition gSobol (a x : list R) : R := lprod (map (fun p => (Rabs (4 * snd p - 2) + fst p) / (1 + fst p)) (combine a x)).
(** experimentsNd.py:123-133; input_dim is the length of the row *)
Definition ackley (x : list R) : R :=
  let d := INR (length x) in
  20 + exp 1 - 20 * exp (- (2 / 10) * sqrt (lsum (map (fun v => v ^ 2) x) / d)) - exp (lsum (map (fun v => cos (2 * PI * v)) x) / d).

(** What f returns for several rows: the column of values plus the noise.  With sd = 0 the noise is a column of zeros; otherwise it is
    drawn as a vector and made a column, except in alpine1 (experimentsNd.py:35), where the sum broadcasts column and row. *)
Definition returned (column_noise : bool) (fval noise : list R) : list (list R) :=
  if column_noise then map (fun p => [fst p + snd p]) (combine fval noise) else map (fun v => map (fun e => v + e) noise) fval.
Definition values (f : list R -> R) (column_noise : bool) (X : list (list R)) (noise : option (list R)) : list (list R) :=
  match noise with
  | None => returned true (map f X) (map (fun _ => 0) X)
  | Some e => returned column_noise (map f X) e
  end.
(** experiments1d.py:36-44 *)
Definition forrester (x : R) : R := (6 * x - 2) ^ 2 * sin (12 * x - 4).
