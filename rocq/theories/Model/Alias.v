(** Arrays as objects that can be changed in place: an objective that modifies its argument, and a user who modifies arrays.
    Same code as Objective.v and BO.v (GPyOpt/core/task/objective.py:44-77, GPyOpt/core/bo.py:60-212, 309-310), with references in
    place of matrices.  Only arrays of locations are references; values, costs and the arrays inside the surrogate stay values.
    Definitions only. *)
From Coq Require Import String List ZArith QArith Qcanon Bool.
From Verif.Model Require Import Py Space Design Optim Objective BO.
Import ListNotations.
Local Open Scope nat_scope.

(** The memory: an array is a position in this list. *)
Definition heap := list mat.
Definition ref := nat.
Definition rd (H : heap) (a : ref) : mat := nth a H [].
Definition alloc (H : heap) (A : mat) : heap * ref := (H ++ [A], length H).
Fixpoint put {A} (i : nat) (a : A) (l : list A) : list A :=
  match l, i with
  | [], _ => []
  | _ :: t, O => a :: t
  | b :: t, S i => b :: put i a t
  end.
Definition wr (H : heap) (a : ref) (A : mat) : heap := put a A H.
Definition wr_row (H : heap) (a : ref) (i : nat) (x : vec) : heap := wr H a (put i x (rd H a)).

(** An objective that may modify the 1 x d array it gets: what it leaves there, and its value (or exception).  Like [objfun] it
    sees the rows it was called on before.  It modifies no other array. *)
Definition mutfun := list vec -> vec -> vec * res Qc.
Definition value_of (f : mutfun) : objfun := fun h x => snd (f h x).
(** The number of processes and their start method as in [objective]; maximize (bayesian_optimization.py:200-204) is part of the function. *)
Record objective_m := mk_objm { om_fun : mutfun; om_procs : nat; om_fork : bool }.
Definition plain (o : objective_m) : objective := mk_obj (value_of (om_fun o)) (om_procs o) (om_fork o).

(** objective.py:64-77 _eval_func on the array [a]: np.atleast_2d(x[i]) is a view of row i, so what the objective writes is
    written to the array.  [i] the row, [n] the number of rows left. *)
Fixpoint eval_rows_m (f : mutfun) (clock : nat -> Qc) (H : heap) (h : list vec) (t : nat) (a : ref) (i n : nat)
  : heap * (list vec * nat * res (list (Qc * Qc))) :=
  match n with
  | O => (H, (h, t, Ok []))
  | S n =>
      let x := nth i (rd H a) [] in
      let (x', r) := f h x in
      let H := wr_row H a i x' in
      match r with
      | Raise e => (H, (h ++ [x], S t, Raise e))
      | Ok y =>
          let d := (clock (S t) - clock t)%Qc in
          match eval_rows_m f clock H (h ++ [x]) (S (S t)) a (S i) n with
          | (H', (h', t', Ok l)) => (H', (h', t', Ok ((y, d) :: l)))
          | (H', (h', t', Raise e)) => (H', (h', t', Raise e))
          end
      end
  end.
Definition eval_func_m (f : mutfun) (clock : nat -> Qc) (H : heap) (h : list vec) (t : nat) (a : ref)
  : heap * (list vec * nat * res (vec * costs)) :=
  match eval_rows_m f clock H h t a 0 (length (rd H a)) with
  | (H', (h', t', Ok l)) => (H', (h', t', Ok (map fst l, CList (map snd l))))
  | (H', (h', t', Raise e)) => (H', (h', t', Raise e))
  end.
(** objective.py:44-61 evaluate.  Child processes modify their own copies. *)
Definition evaluate_m (o : objective_m) (clock : nat -> Qc) (H : heap) (h : list vec) (t : nat) (a : ref)
  : heap * (list vec * nat * run (vec * costs)) :=
  if Nat.eqb (om_procs o) 1 then
    match eval_func_m (om_fun o) clock H h t a with (H', (h', t', r)) => (H', (h', t', Some r)) end
  else
    match parallel_evaluation (plain o) clock h t (rd H a) with
    | Some (Raise _) => match eval_func_m (om_fun o) clock H h t a with (H', (h', t', r)) => (H', (h', t', Some r)) end
    | r => (H, (h, t, r))
    end.

(** The object: the memory, the arrays self.X and self.suggested_sample, the view self.x_opt (an array and a row of it), and
    everything else.  The fields s_X and s_sugg of [hs_st] are not used: [view] puts the contents of the arrays there. *)
Record hst {M : Type} := mk_hst { hs_heap : heap; hs_X : ref; hs_sugg : ref; hs_opt : option (ref * nat); hs_st : st M }.
Arguments hst : clear implicits.

Section Alias.
Context {M : Type}.
Notation env := (env M).
Notation hst := (hst M).

Definition view (s : hst) : st M := set_sugg (set_X (hs_st s) (rd (hs_heap s) (hs_X s))) (rd (hs_heap s) (hs_sugg s)).
Definition with_st (s : hst) (t : st M) : hst := mk_hst M (hs_heap s) (hs_X s) (hs_sugg s) (hs_opt s) t.
Definition with_heap (s : hst) (H : heap) : hst := mk_hst M H (hs_X s) (hs_sugg s) (hs_opt s) (hs_st s).

(** bo.py:198-204 evaluate_objective: the cost model gets the array as the objective left it *)
Definition evaluate_objective_m (E : env) (o : objective_m) (s : hst) : hst * run unit :=
  match evaluate_m o (e_clock E) (hs_heap s) (s_hist (hs_st s)) (s_tick (hs_st s)) (hs_sugg s) with
  | (H, (h, t, r)) =>
      let s := with_st (with_heap s H) (set_world (hs_st s) h t) in
      match r with
      | None => (s, None)
      | Some (Raise e) => (s, Some (Raise e))
      | Some (Ok (ys, cs)) =>
          let s := with_st s (set_ynew (hs_st s) (Some ys)) in
          match update_cost_model (e_lg E) (e_costfit E) (s_cost (hs_st s)) (rd (hs_heap s) (hs_sugg s)) cs with
          | (c, Raise e) => (with_st s (set_cost (hs_st s) c), Some (Raise e))
          | (c, Ok _) =>
              let q := set_cost (hs_st s) c in
              (with_st s (set_Y q (match s_Y q with Some Y => Some (Y ++ ys) | None => None end)), Some (Ok tt))
          end
      end
  end.

(** bo.py:206-212 _compute_results: self.X[i, :] is a view of row i *)
Definition compute_results_m (s : hst) : hst * res unit :=
  match compute_results (view s) with
  | (t, r) =>
      (mk_hst M (hs_heap s) (hs_X s) (hs_sugg s)
        (match r, s_Y t with Ok _, Some Y => match argmin Y with Some i => Some (hs_X s, i) | None => hs_opt s end | _, _ => hs_opt s end) t, r)
  end.

(** bo.py:139-164 the while loop: np.vstack makes a new array, and so does the evaluator *)
Fixpoint loop_m (fuel : nat) (E : env) (o : objective_m) (mi mt : option Qc) (eps z : Qc) (s : hst) : hst * run unit :=
  match fuel with
  | O => (s, None)
  | S fuel =>
      if time_left mt (s_cum (hs_st s)) then
        match update_model E (view s) with
        | (t, Raise LinAlgError) => (with_st s t, Some (Ok tt))
        | (t, Raise e) => (with_st s t, Some (Raise e))
        | (t, Ok _) =>
            let s := with_st s t in
            if iters_done mi (s_num t) || (Nat.ltb 1 (length (s_X (view s))) && last_two_close eps (s_X (view s))) then (s, Some (Ok tt))
            else
              match compute_next_evaluations E (view s) None None with
              | (t, None) => (with_st s t, None)
              | (t, Some (Raise e)) => (with_st s t, Some (Raise e))
              | (t, Some (Ok b)) =>
                  let (H, ab) := alloc (hs_heap s) b in
                  let s := mk_hst M H (hs_X s) ab (hs_opt s) t in
                  match vstack (rd H (hs_X s)) (rd H ab) with
                  | Raise e => (s, Some (Raise e))
                  | Ok X' =>
                      let (H, aX) := alloc H X' in
                      match evaluate_objective_m E o (mk_hst M H aX ab (hs_opt s) t) with
                      | (s, Some (Ok _)) =>
                          let t := hs_st s in
                          let t := set_cum (set_world t (s_hist t) (S (s_tick t))) (e_clock E (s_tick t) - z)%Qc in
                          loop_m fuel E o mi mt eps z (with_st s (set_num t (S (s_num t))))
                      | (s, r) => (s, r)
                      end
                  end
              end
        end
      else (s, Some (Ok tt))
  end.

(** bo.py:125-129 the initial evaluation: of the array self.X itself *)
Definition initial_evaluation_m (E : env) (o : objective_m) (s : hst) : hst * run unit :=
  match s_Y (hs_st s) with
  | Some _ => (s, Some (Ok tt))
  | None =>
      match evaluate_m o (e_clock E) (hs_heap s) (s_hist (hs_st s)) (s_tick (hs_st s)) (hs_X s) with
      | (H, (h, t, r)) =>
          let s := with_st (with_heap s H) (set_world (hs_st s) h t) in
          match r with
          | None => (s, None)
          | Some (Raise e) => (s, Some (Raise e))
          | Some (Ok (ys, cs)) =>
              let s := with_st s (set_Y (hs_st s) (Some ys)) in
              if is_time_cost (s_cost (hs_st s)) then
                match update_cost_model (e_lg E) (e_costfit E) (s_cost (hs_st s)) (rd (hs_heap s) (hs_X s)) cs with
                | (c, Raise e) => (with_st s (set_cost (hs_st s) c), Some (Raise e))
                | (c, Ok _) => (with_st s (set_cost (hs_st s) c), Some (Ok tt))
                end
              else (s, Some (Ok tt))
          end
      end
  end.

(** bo.py:78-167 run_optimization; line 135: self.suggested_sample is the same array as self.X.  The objective of [E] is not used. *)
Definition run_optimization_m (fuel : nat) (E : env) (o : objective_m) (s : hst) (max_iter max_time : lim) (eps : Qc)
  (ctx : option (list (string * Qc))) : hst * run unit :=
  let s := with_st s (set_ctx (set_params (hs_st s) None) ctx) in
  match initial_evaluation_m E o s with
  | (s, Some (Ok _)) =>
      let t := hs_st s in
      let z := e_clock E (s_tick t) in
      let t := set_world t (s_hist t) (S (s_tick t)) in
      let t := set_ynew (set_num (set_cum t q0) 0) (s_Y t) in
      let s := mk_hst M (hs_heap s) (hs_X s) (hs_X s) (hs_opt s) t in
      match loop_m fuel E o (fst (stop_conditions max_iter max_time)) (snd (stop_conditions max_iter max_time)) eps z s with
      | (s, Some (Ok _)) => let (s, r) := compute_results_m s in (s, Some r)
      | r => r
      end
  | r => r
  end.

(** bayesian_optimization.py:113-116, 196-197: BayesianOptimization(f, X = X) with the user's array [a] and no values evaluates the
    array and keeps it.  *)
Definition construct_m (o : objective_m) (clock : nat -> Qc) (H : heap) (a : ref) (cost : costarg) (m : M) : heap * run hst :=
  match evaluate_m o clock H [] 0 a with
  | (H, (h, t, r)) =>
      (H, p <~ r ;;
          Some (Ok (mk_hst M H a a None (mk_st M [] (Some (fst p)) (cost_model (ArgObject (cost_model cost))) m None None 0 q0 [] None None h t []))))
  end.

(** What a user does with the object: runs, suggestions (bo.py:60-76), get_evaluations (bo.py:309-310, copies), and writing to an
    array that an earlier call returned.  Each suggestion or get_evaluations returns a new array; [got] are the arrays received. *)
Inductive uop :=
| URun (fuel : nat) (max_iter max_time : lim) (eps : Qc) (ctx : option (list (string * Qc)))
| USuggest (ctx : option (list (string * Qc))) (pending ignored : option mat)
| UGet
| UWrite (k : nat) (A : mat).
(** What the user sees. *)
Inductive seen := SawRun (r : res unit) | SawRows (r : res mat) | SawEvaluations (X : mat) (Y : vec).
Definition ustep (E : env) (o : objective_m) (s : hst) (got : list ref) (u : uop) : option (hst * list ref * list seen) :=
  match u with
  | URun fuel mi mt eps ctx =>
      match run_optimization_m fuel E o s mi mt eps ctx with
      | (s, None) => None
      | (s, Some r) => Some (s, got, [SawRun r])
      end
  | USuggest ctx p i =>
      match suggest_next_locations E (view s) ctx p i with
      | (t, None) => None
      | (t, Some (Raise e)) => Some (with_st s t, got, [SawRows (Raise e)])
      | (t, Some (Ok b)) => let (H, a) := alloc (hs_heap s) b in Some (with_st (with_heap s H) t, got ++ [a], [SawRows (Ok b)])
      end
  | UGet =>
      match s_Y (hs_st s) with
      | None => Some (s, got, [SawRows (Raise AttributeError)])
      | Some Y =>
          let X := rd (hs_heap s) (hs_X s) in
          let (H, a) := alloc (hs_heap s) X in Some (with_heap s H, got ++ [a], [SawEvaluations X Y])
      end
  | UWrite k A =>
      match nth_error got k with
      | Some a => Some (with_heap s (wr (hs_heap s) a A), got, [])
      | None => Some (s, got, [])
      end
  end.
Fixpoint urun (E : env) (o : objective_m) (s : hst) (got : list ref) (us : list uop) : option (hst * list ref * list seen) :=
  match us with
  | [] => Some (s, got, [])
  | u :: t =>
      match ustep E o s got u with
      | None => None
      | Some (s, got, l) => match urun E o s got t with None => None | Some (s, got, l') => Some (s, got, l ++ l') end
      end
  end.
(** The user writes to self.x_opt. *)
Definition write_opt (s : hst) (x : vec) : hst :=
  match hs_opt s with Some (a, i) => with_heap s (wr_row (hs_heap s) a i x) | None => s end.
End Alias.
