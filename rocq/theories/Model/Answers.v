(** What an objective may return: SingleObjective.evaluate (GPyOpt/core/task/objective.py) for answers of any shape.  Model/Objective.v has the
    same functions for objectives that return one number.  Definitions only. *)
From Coq Require Import String List ZArith QArith Qcanon Bool.
From Verif.Model Require Import Py Space Design Optim Objective.
Import ListNotations.
Local Open Scope nat_scope.

(** What the function returns: a number, a one-dimensional array or list, a two-dimensional array with [width] columns, or an array with more
    dimensions.  Simplification: the entries are numbers. *)
Inductive answer := AScalar (v : Qc) | AVec (l : vec) | AMat (width : nat) (rows : mat) | AMore.
Definition anyfun := list vec -> vec -> res answer.

(** objective.py:75 np.vstack([f_evals, rlt]): numpy's atleast_2d turns a number into a 1 x 1 and a vector of n entries into a 1 x n array; f_evals has
    one column, and arrays of another width or with more dimensions are refused.  Returns the rows that are added to f_evals. *)
Definition new_rows (a : answer) : res vec :=
  match a with
  | AScalar v => Ok [v]
  | AVec l => if Nat.eqb (length l) 1 then Ok l else Raise ValueError
  | AMat w m => if Nat.eqb w 1 then Ok (concat m) else Raise ValueError
  | AMore => Raise ValueError
  end.

(** objective.py:64-77 _eval_func; as eval_rows of Model/Objective.v.  The values and the durations are two lists: a call may add any number of values
    and adds one duration. *)
Fixpoint eval_any (f : anyfun) (clock : nat -> Qc) (h : list vec) (t : nat) (rows : mat) : list vec * nat * res (vec * vec) :=
  match rows with
  | [] => (h, t, Ok ([], []))
  | x :: r =>
      match (a <- f h x ;; new_rows a) with
      | Raise e => (h ++ [x], S t, Raise e)
      | Ok c =>
          let d := (clock (S t) - clock t)%Qc in
          match eval_any f clock (h ++ [x]) (S (S t)) r with
          | (h', t', Ok (ys, ds)) => (h', t', Ok (c ++ ys, d :: ds))
          | (h', t', Raise e) => (h', t', Raise e)
          end
      end
  end.
Definition eval_func_any (f : anyfun) (clock : nat -> Qc) (h : list vec) (t : nat) (rows : mat) : list vec * nat * res (vec * costs) :=
  match eval_any f clock h t rows with
  | (h', t', Ok (ys, ds)) => (h', t', Ok (ys, CList ds))
  | (h', t', Raise e) => (h', t', Raise e)
  end.
Definition child_any (f : anyfun) (clock : nat -> Qc) (h : list vec) (t : nat) (rows : mat) : res vec :=
  match eval_any f clock h t rows with (_, _, Ok (ys, _)) => Ok ys | (_, _, Raise e) => Raise e end.

(** objective.py:99 f_evals[i::n] = message: numpy's broadcasting also accepts a message of one row, which fills the whole stride *)
Definition assign (n i : nat) (Y m : vec) : res vec :=
  let l := length (stride n i Y) in
  if Nat.eqb (length m) l then Ok (put_stride n i Y m)
  else match m with
       | [v] => Ok (put_stride n i Y (repeat v l))
       | _ => Raise ValueError
       end.
(** objective.py:97-100 the loop that receives the messages of the children in order: None when one of them never comes *)
Fixpoint collect_any (n i : nat) (Y : vec) (msgs : list (res vec)) : run vec :=
  match msgs with
  | [] => Some (Ok Y)
  | Raise _ :: _ => None
  | Ok m :: t => match assign n i Y m with Ok Y' => collect_any n (S i) Y' t | Raise e => Some (Raise e) end
  end.
(** objective.py:80-101 _syncronous_batch_evaluation *)
Definition parallel_any (n : nat) (fork : bool) (f : anyfun) (clock : nat -> Qc) (h : list vec) (t : nat) (x : mat) : run (vec * costs) :=
  if negb fork && Nat.ltb 0 n then Some (Raise AttributeError)
  else
    match collect_any n 0 (repeat q0 (length x)) (map (child_any f clock h t) (divided_samples n x)) with
    | Some (Ok Y) => Some (Ok (Y, CMat (map (fun _ => [q1]) x)))
    | Some (Raise e) => Some (Raise e)
    | None => None
    end.
(** objective.py:44-61 evaluate *)
Definition evaluate_any (n : nat) (fork : bool) (f : anyfun) (clock : nat -> Qc) (h : list vec) (t : nat) (x : mat) : list vec * nat * run (vec * costs) :=
  if Nat.eqb n 1 then
    match eval_func_any f clock h t x with (h', t', r) => (h', t', Some r) end
  else
    match parallel_any n fork f clock h t x with
    | Some (Raise _) => match eval_func_any f clock h t x with (h', t', r) => (h', t', Some r) end
    | r => (h, t, r)
    end.
