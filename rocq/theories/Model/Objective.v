(** Evaluating the objective: SingleObjective (GPyOpt/core/task/objective.py) and the bookkeeping of CostModel
    (GPyOpt/core/task/cost.py).  Definitions only. *)
From Coq Require Import String List ZArith QArith Qcanon Bool.
From Verif.Model Require Import Py Space Design Optim.
Import ListNotations.
Local Open Scope nat_scope.

(** The user's objective.  It is called on one row and returns one value or raises; it may be stateful or noisy, so it
    also sees the rows on which the same process called it before.
    Simplification: the documented contract is assumed, a 1 x d array gives one number.  Model/Answers.v has answers of any
    shape (C110). *)
Definition objfun := list vec -> vec -> res Qc.

(** objective.py:36-41.  [o_fork]: processes can be started with a local function as target (true with the fork start
    method; with spawn the target cannot be pickled and Process.start raises). *)
Record objective := mk_obj { o_fun : objfun; o_procs : nat; o_fork : bool }.

(** What cost values look like: a Python list (sequential evaluation) or a matrix (parallel evaluation). *)
Inductive costs := CList (l : vec) | CMat (m : mat).

(** objective.py:64-77 _eval_func, the loop over the rows.  [h] the calls made so far in this process, [t] the number of
    readings of the clock so far; returns the new [h] and [t] and the values with their durations. *)
Fixpoint eval_rows (f : objfun) (clock : nat -> Qc) (h : list vec) (t : nat) (rows : mat)
  : list vec * nat * res (list (Qc * Qc)) :=
  match rows with
  | [] => (h, t, Ok [])
  | x :: r =>
      match f h x with
      | Raise e => (h ++ [x], S t, Raise e)
      | Ok y =>
          let d := (clock (S t) - clock t)%Qc in
          match eval_rows f clock (h ++ [x]) (S (S t)) r with
          | (h', t', Ok l) => (h', t', Ok ((y, d) :: l))
          | (h', t', Raise e) => (h', t', Raise e)
          end
      end
  end.
Definition eval_func (f : objfun) (clock : nat -> Qc) (h : list vec) (t : nat) (rows : mat)
  : list vec * nat * res (vec * costs) :=
  match eval_rows f clock h t rows with
  | (h', t', Ok l) => (h', t', Ok (map fst l, CList (map snd l)))
  | (h', t', Raise e) => (h', t', Raise e)
  end.

(** numpy x[i::n] (n >= 1): [skip] elements are passed over before the next one is taken *)
Fixpoint stride {A} (n skip : nat) (l : list A) : list A :=
  match l with
  | [] => []
  | a :: t => match skip with O => a :: stride n (n - 1) t | S k => stride n k t end
  end.
(** numpy dst[i::n] = src for a source of the right length *)
Fixpoint put_stride {A} (n skip : nat) (dst src : list A) : list A :=
  match dst with
  | [] => []
  | d :: t =>
      match skip with
      | O => match src with s :: ss => s :: put_stride n (n - 1) t ss | [] => d :: put_stride n (n - 1) t [] end
      | S k => d :: put_stride n k t src
      end
  end.

(** objective.py:88 divided_samples *)
Definition divided_samples (n : nat) (x : mat) : list mat := map (fun i => stride n i x) (seq 0 n).

(** What a child process computes (general.py:144-151 spawn, objective.py:64-77): it starts from a copy of the state of
    the parent. *)
Definition child (f : objfun) (clock : nat -> Qc) (h : list vec) (t : nat) (rows : mat) : res vec :=
  match eval_rows f clock h t rows with (_, _, Ok l) => Ok (map fst l) | (_, _, Raise e) => Raise e end.

(** objective.py:98-100 the values are written back in strides *)
Fixpoint collect (n i : nat) (Y : vec) (msgs : list vec) : vec :=
  match msgs with
  | [] => Y
  | m :: t => collect n (S i) (put_stride n i Y m) t
  end.

(** objective.py:80-101 _syncronous_batch_evaluation as a function of the parent: None when the parent waits for ever,
    which is what recv does when a child raised, because the parent keeps the child's end of the pipe open.
    (The processes and their schedules are modelled in Parallel.v; messages fit in the pipe here.) *)
Definition parallel_evaluation (o : objective) (clock : nat -> Qc) (h : list vec) (t : nat) (x : mat)
  : run (vec * costs) :=
  if negb (o_fork o) && Nat.ltb 0 (o_procs o) then Some (Raise AttributeError)
  else
    match mapM (child (o_fun o) clock h t) (divided_samples (o_procs o) x) with
    | Ok msgs => Some (Ok (collect (o_procs o) 0 (repeat q0 (length x)) msgs, CMat (map (fun _ => [q1]) x)))
    | Raise _ => None
    end.

(** objective.py:44-61 evaluate.  Returns the calls made in this process, the clock readings and the result. *)
Definition evaluate (o : objective) (clock : nat -> Qc) (h : list vec) (t : nat) (x : mat)
  : list vec * nat * run (vec * costs) :=
  if Nat.eqb (o_procs o) 1 then
    match eval_func (o_fun o) clock h t x with (h', t', r) => (h', t', Some r) end
  else
    match parallel_evaluation o clock h t x with
    | Some (Raise _) => match eval_func (o_fun o) clock h t x with (h', t', r) => (h', t', Some r) end
    | r => (h, t, r)
    end.

(** ---------------------------------------------------------------- CostModel *)
(** The argument of CostModel: nothing, the string 'evaluation_time', a user function, or another CostModel object.
    The surrogate of the evaluation time is represented by num_updates and the data it was last trained on (None: it has
    no model yet). *)
Inductive costmodel :=
| CostConstant
| CostTime (num_updates : nat) (trained : option (mat * mat))
| CostUser (f : vec -> Qc * vec)
| CostObject (c : costmodel).
Inductive costarg := ArgNone | ArgTime | ArgFun (f : vec -> Qc * vec) | ArgObject (c : costmodel).
(** cost.py:22-38 CostModel.__init__ *)
Definition cost_model (a : costarg) : costmodel :=
  match a with
  | ArgNone => CostConstant
  | ArgTime => CostTime 0 None
  | ArgFun f => CostUser f
  | ArgObject c => CostObject c
  end.

(** cost.py:64 np.atleast_2d(np.asarray(cost_x)).T : a list of n numbers becomes n x 1, an n x 1 matrix becomes 1 x n *)
Definition cost_column (c : costs) : mat :=
  match c with CList l => map (fun x => [x]) l | CMat m => [concat m] end.

(** What the surrogate of the cost does with new data: GPy demands as many outputs as inputs (AssertionError);
    otherwise it trains, or fails for numerical reasons. *)
Definition cost_fit := mat -> mat -> option exn.
Definition gp_accepts (X C : mat) : bool := Nat.eqb (length X) (length C).
(** np.vstack: the widths must agree *)
Definition widths_agree (A B : mat) : bool :=
  match A ++ B with [] => true | r :: t => forallb (fun s => Nat.eqb (length s) (length r)) t end.
Definition vstack (A B : mat) : res mat := if widths_agree A B then Ok (A ++ B) else Raise ValueError.

(** cost.py:55-74 update_cost_model.  [lg] is the logarithm.  num_updates is increased before the training, so after a
    failed first training the next call looks up the data of a model that does not exist (AttributeError).
    Simplification: when a later training is rejected the surrogate keeps its old data. *)
Definition update_cost_model (lg : Qc -> Qc) (fit : cost_fit) (c : costmodel) (x : mat) (cost_x : costs)
  : costmodel * res unit :=
  match c with
  | CostTime n tr =>
      let ce := map (map lg) (cost_column cost_x) in
      let all := match n, tr with
                 | O, _ => Ok (x, ce)
                 | S _, None => Raise AttributeError
                 | S _, Some (X0, C0) => X1 <- vstack X0 x ;; C1 <- vstack C0 ce ;; Ok (X1, C1)
                 end in
      match all with
      | Raise e => (c, Raise e)
      | Ok (X1, C1) =>
          if gp_accepts X1 C1 then
            (CostTime (S n) (Some (X1, C1)), match fit X1 C1 with None => Ok tt | Some e => Raise e end)
          else (CostTime (S n) tr, Raise AssertionError)
      end
  | _ => (c, Ok tt)
  end.

(** cost_type == 'evaluation_time' *)
Definition is_time_cost (c : costmodel) : bool := match c with CostTime _ _ => true | _ => false end.

(** cost.py:41-53, 76-80 cost_withGradients at one point.  [predict] is the trained surrogate's mean and mean gradient,
    [ex] the exponential; an untrained surrogate has no model (AttributeError), a CostModel object is not callable. *)
Definition cost_withGradients (predict : mat * mat -> vec -> Qc * vec) (ex : Qc -> Qc) (c : costmodel) (x : vec)
  : res (Qc * vec) :=
  match c with
  | CostConstant => Ok (q1, map (fun _ => q0) x)
  | CostTime _ None => Raise AttributeError
  | CostTime _ (Some d) => let p := predict d x in Ok (ex (fst p), map (Qcmult (ex (fst p))) (snd p))
  | CostUser f => Ok (f x)
  | CostObject _ => Raise TypeError
  end.
