(** The optimization loop: what the data of a run must look like. *)
From Coq Require Import String List ZArith QArith Qcanon Bool.
From Verif.Model Require Import Py Space Design Optim Objective BO.
Import ListNotations.
Local Open Scope nat_scope.

(** [ys] are the answers of the objective to [rows], asked one after the other in a process in which it was called on
    [h] before. *)
Definition answers (f : objfun) (h rows : list vec) (ys : vec) : Prop :=
  length ys = length rows /\
  forall i x, nth_error rows i = Some x -> exists y, nth_error ys i = Some y /\ f (h ++ firstn i rows) x = Ok y.
(** The objective does not depend on earlier calls. *)
Definition stateless (f : objfun) : Prop := forall h h' x, f h x = f h' x.
Definition values_at (f : objfun) (rows : mat) (ys : vec) : Prop := Forall2 (fun x y => forall h, f h x = Ok y) rows ys.

(** One value per row. *)
Definition aligned (X : mat) (Y : vec) : Prop := length X = length Y.

(** [m] is the least entry of [l]. *)
Definition is_min (m : Qc) (l : vec) : Prop := In m l /\ forall y, In y l -> (m <= y)%Qc.
(** [i] is the first position of the least entry. *)
Definition first_min (i : nat) (l : vec) : Prop :=
  exists m, nth_error l i = Some m /\ is_min m l /\ forall j y, j < i -> nth_error l j = Some y -> (m < y)%Qc.

(** Euclidean distance of two rows at most [eps], without square roots. *)
Definition within_eps (eps : Qc) (a b : vec) : Prop :=
  (0 <= eps)%Qc /\ (qsum (map (fun p => ((fst p - snd p) * (fst p - snd p))%Qc) (combine a b)) <= eps * eps)%Qc.

(** Iteration number [i] of a run trains the model. *)
Definition due (interval : Z) (i : nat) : bool := Z.eqb (Z.of_nat i mod interval) 0.
(** The data the model is trained on when the rows are [X] and the values [Y]. *)
Definition training_data {M} (E : env M) (X : mat) (Y : vec) (Xm : mat) (Ym : vec) : Prop :=
  unzip_inputs (e_space E) X = Ok Xm /\ Ym = match e_norm E with Some nf => nf Y | None => Y end.
(** The updates of a run that starts with [X0], [Y0] and then acquires the batches [bs] with values [yss], over its first
    [n] iterations: exactly the due iterations train, each on everything evaluated before. *)
Definition update_schedule {M} (E : env M) (X0 : mat) (Y0 : vec) (bs : list mat) (yss : list vec) (n : nat)
  (U : list (nat * mat * vec)) : Prop :=
  map (fun u => fst (fst u)) U = filter (due (e_interval E)) (seq 0 n) /\
  forall i Xm Ym, In (i, Xm, Ym) U ->
    training_data E (X0 ++ concat (firstn i bs)) (Y0 ++ concat (firstn i yss)) Xm Ym.

(** A history in which every call returns normally. *)
Fixpoint history {M} (E : env M) (s : st M) (ops : list op) (s' : st M) : Prop :=
  match ops with
  | [] => s' = s
  | o :: t => exists s1, step E s o = (s1, Some (Ok tt)) /\ history E s1 t s'
  end.
(** A history in which calls may raise exceptions that the user catches. *)
Fixpoint history_caught {M} (E : env M) (s : st M) (ops : list op) (s' : st M) : Prop :=
  match ops with
  | [] => s' = s
  | o :: t => exists s1 r, step E s o = (s1, Some r) /\ history_caught E s1 t s'
  end.

(** The limits of run_optimization as documented: no limits at all means no iteration. *)
Definition iteration_limit (max_iter max_time : lim) (q : Qc) : Prop :=
  max_iter = LFin q \/ (max_iter = LNone /\ max_time = LNone /\ q = 0%Qc).
Definition time_limit (max_time : lim) (t : Qc) : Prop := max_time = LFin t.

(** Nothing inside an iteration can go on for ever: the evaluator returns, and the objective is evaluated in this process
    or never raises. *)
Definition parts_return {M} (E : env M) (o : objective) : Prop :=
  (forall m odm cm, snd (e_batch E m odm cm) <> None) /\ (o_procs o = 1 \/ forall h x, exists y, o_fun o h x = Ok y).
(** The rows of the parameter history. *)
Definition hist_rows (p : option mat) : mat := match p with Some H => H | None => [] end.

(** The rows that had no value when a run was started, and the values there were. *)
Definition pending_rows {M} (s : st M) : mat := match s_Y s with None => s_X s | Some _ => [] end.
Definition values_so_far {M} (s : st M) : vec := match s_Y s with None => [] | Some Y => Y end.

(** A surrogate that rejects inputs and outputs of different lengths. *)
Definition rejects_mismatch {M} (E : env M) : Prop :=
  (forall m X Y, length X <> length Y -> snd (e_update E m X Y) = Some ValueError) /\
  (forall nf, e_norm E = Some nf -> forall Y, length (nf Y) = length Y).
(** Calls that consult the surrogate: suggestions, and runs with a positive time budget. *)
Definition consults_model (o : op) : Prop :=
  match o with
  | OSuggest _ _ _ => True
  | ORun fuel _ mt _ _ => 0 < fuel /\ forall t, mt = LFin t -> (0 < t)%Qc
  end.

(** The same environment with another objective. *)
Definition with_objective {M} (E : env M) (o : option objective) : env M :=
  mk_env M (e_space E) (e_dedup E) (e_interval E) (e_norm E) o (e_batch E) (e_update E) (e_params E) (e_clock E) (e_lg E) (e_costfit E).
(** [g] is minus [f]. *)
Definition is_negation (f g : objfun) : Prop :=
  forall h x, g h x = match f h x with Ok y => Ok (- y)%Qc | Raise e => Raise e end.
Definition is_max (m : Qc) (l : vec) : Prop := In m l /\ forall y, In y l -> (y <= m)%Qc.
(** The constructor call with another number of cores. *)
Definition with_cores (a : bo_args) (n : nat) : bo_args :=
  mk_args (a_f a) (a_space a) (a_X a) (a_Y a) (a_design a) (a_numdata a) (a_maximize a) (a_batch_size a) n (a_cost a).
(** The constructor call that minimises [g]. *)
Definition minimising (a : bo_args) (g : objfun) : bo_args :=
  mk_args (Some g) (a_space a) (a_X a) (a_Y a) (a_design a) (a_numdata a) false (a_batch_size a) (a_num_cores a) (a_cost a).

(** A sequence of updates of a cost model that all succeed. *)
Fixpoint cost_history (lg : Qc -> Qc) (fit : cost_fit) (c : costmodel) (ups : list (mat * costs)) (c' : costmodel) : Prop :=
  match ups with
  | [] => c' = c
  | (x, cs) :: t => exists c1, update_cost_model lg fit c x cs = (c1, Ok tt) /\ cost_history lg fit c1 t c'
  end.
(** A sequence of updates of a cost model that may raise exceptions. *)
Fixpoint cost_history_caught (lg : Qc -> Qc) (fit : cost_fit) (c : costmodel) (ups : list (mat * costs)) (c' : costmodel) : Prop :=
  match ups with
  | [] => c' = c
  | (x, cs) :: t => exists c1 r, update_cost_model lg fit c x cs = (c1, r) /\ cost_history_caught lg fit c1 t c'
  end.
