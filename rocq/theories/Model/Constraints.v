(** Constraints as the user writes them: Python expressions in the matrix x of locations, GPyOpt/core/task/space.py:296-311.
    Model/Space.v has a function of one row in the place of an expression.  Definitions only. *)
From Coq Require Import List ZArith QArith Qcanon Bool.
From Verif.Model Require Import Py Space Ieee.
Import ListNotations.
Local Open Scope nat_scope.

(** A number: NaN and the infinities occur, the zeros are not distinguished. *)
Definition num := fl Qc.
(** An expression in x.  Functions that work entry by entry ([EUn]: np.sqrt, -; [EBin]: +, -, *, /, **, np.minimum) and functions that turn
    a row into a number ([ERed]: np.sum(.., axis=1), np.max(.., axis=1)) are arguments.  The text of the expression, and functions that
    combine entries in other ways, are outside this model. *)
Inductive cexpr :=
| ENum (v : num)                                 (* a literal *)
| EX                                             (* x *)
| ECol (i : Z)                                   (* x[:,i] *)
| ERow (i : Z)                                   (* x[i], x[i,:] *)
| EAt (i j : Z)                                  (* x[i,j] *)
| EUn (g : num -> num) (a : cexpr)
| EBin (g : num -> num -> num) (a b : cexpr)
| ERed (g : list num -> num) (a : cexpr).

(** What an expression gives: a Python number, a numpy number, a vector, a matrix with [w] columns. *)
Inductive arr := APy (v : num) | ANp (v : num) | AVec (l : list num) | AMat (w : nat) (m : list (list num)).
Definition rank (a : arr) : nat := match a with APy _ | ANp _ => 0 | AVec _ => 1 | AMat _ _ => 2 end.
Definition as2 (a : arr) : nat * list (list num) :=
  match a with APy v | ANp v => (1, [[v]]) | AVec l => (length l, [l]) | AMat w m => (w, m) end.
(** numpy broadcasting along one axis *)
Definition pairs {A B} (la : list A) (lb : list B) : res (list (A * B)) :=
  if Nat.eqb (length la) (length lb) then Ok (combine la lb)
  else match la, lb with
       | [a], _ => Ok (map (fun b => (a, b)) lb)
       | _, [b] => Ok (map (fun a => (a, b)) la)
       | _, _ => Raise ValueError
       end.
Definition common (w1 w2 : nat) : res nat :=
  if Nat.eqb w1 w2 then Ok w1 else if Nat.eqb w1 1 then Ok w2 else if Nat.eqb w2 1 then Ok w1 else Raise ValueError.
(** A function of two numbers on two arrays *)
Definition apply2 (g : num -> num -> num) (a b : arr) : res arr :=
  match a, b with
  | APy u, APy v => Ok (APy (g u v))
  | _, _ =>
      let '(wa, ma) := as2 a in
      let '(wb, mb) := as2 b in
      w <- common wa wb ;;
      rows <- pairs ma mb ;;
      m <- mapM (fun r => ps <- pairs (fst r) (snd r) ;; Ok (map (fun p => g (fst p) (snd p)) ps)) rows ;;
      match Nat.max (rank a) (rank b), m with
      | 0, [[v]] => Ok (ANp v)
      | 1, [l] => Ok (AVec l)
      | 2, _ => Ok (AMat w m)
      | _, _ => Raise OutOfModel
      end
  end.
Definition apply1 (g : num -> num) (a : arr) : arr :=
  match a with APy v => APy (g v) | ANp v => ANp (g v) | AVec l => AVec (map g l) | AMat w m => AMat w (map (map g) m) end.

(** constraint(x): [x] has the columns 0 .. w-1.  Reducing along axis 1 what has no such axis is numpy's AxisError, a ValueError. *)
Definition pick {A} (l : list A) (i : Z) : res A := match py_index (length l) i with Some k => get l k | None => Raise IndexError end.
Fixpoint ceval (w : nat) (x : mat) (e : cexpr) : res arr :=
  match e with
  | ENum v => Ok (APy v)
  | EX => Ok (AMat w (map (map Fin) x))
  | ECol i => match py_index w i with Some k => l <- mapM (fun row => get row k) x ;; Ok (AVec (map Fin l)) | None => Raise IndexError end
  | ERow i => row <- pick x i ;; Ok (AVec (map Fin row))
  | EAt i j => row <- pick x i ;; v <- pick row j ;; Ok (ANp (Fin v))
  | EUn g a => a <- ceval w x a ;; Ok (apply1 g a)
  | EBin g a b => a <- ceval w x a ;; b <- ceval w x b ;; apply2 g a b
  | ERed g a => a <- ceval w x a ;; match a with AMat _ m => Ok (AVec (map g m)) | _ => Raise ValueError end
  end.

(** v <= 0: False for NaN *)
Definition le0 (v : num) : bool := negb (is_nan v) && negb (flt qclt (Fin q0) v).
(** space.py:305-306 ind_x = (constraint(x) <= 0)*1 and its reshape(x.shape[0],1).  For a Python number this is an int, which has no
    reshape. *)
Definition indicator (w : nat) (x : mat) (e : cexpr) : res vec :=
  a <- ceval w x e ;;
  let fit l := if Nat.eqb (length l) (length x) then Ok (map (fun v => if le0 v then q1 else q0) l) else Raise ValueError in
  match a with APy _ => Raise AttributeError | ANp v => fit [v] | AVec l => fit l | AMat _ m => fit (concat m) end.
(** space.py:300-311 indicator_constraints, the constraints being the expressions [es] *)
Fixpoint indicators (w : nat) (x : mat) (es : list cexpr) (I : vec) : res vec :=
  match es with
  | [] => Ok I
  | e :: es => v <- indicator w x e ;; indicators w x es (map (fun p => (fst p * snd p)%Qc) (combine I v))
  end.
Definition indicator_expressions (w : nat) (es : list cexpr) (x : mat) : res vec := indicators w x es (repeat q1 (length x)).
