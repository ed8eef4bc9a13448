(** The optimization loop: GPyOpt/core/bo.py, GPyOpt/methods/bayesian_optimization.py:78-204 and
    GPyOpt/methods/modular_bayesian_optimization.py.  Definitions only.

    The surrogate, the acquisition, the evaluator and the random generator are one abstract object of type [M]: the
    loop only trains it, asks it for a batch and reads its parameters. *)
From Coq Require Import String List ZArith QArith Qcanon Bool.
From Verif.Model Require Import Py Space Design Optim Objective.
Import ListNotations.
Local Open Scope nat_scope.

(** A limit given by the user: None, infinity or a number. *)
Inductive lim := LNone | LInf | LFin (q : Qc).

(** bo.py:112-123 the table of stop conditions: effective max_iter and max_time (None stands for infinity) *)
Definition stop_conditions (max_iter max_time : lim) : option Qc * option Qc :=
  let fin l := match l with LFin q => Some q | _ => None end in
  match max_iter, max_time with
  | LNone, LNone => (Some q0, None)
  | LNone, t => (None, fin t)
  | i, LNone => (fin i, None)
  | i, t => (fin i, fin t)
  end.

(** What a BO object is built from (bo.py:43-58): everything that does not change during its life, and the behaviour
    of the outside world. *)
Record env {M : Type} := mk_env {
  e_space : space;
  e_dedup : bool;
  e_interval : Z;                                          (* model_update_interval *)
  e_norm : option (vec -> vec);                             (* normalize(Y,'stats') when normalize_Y, see Util.v *)
  e_obj : option objective;
  e_batch : M -> option dupmgr -> ctxmgr -> M * run mat;    (* evaluator.compute_batch *)
  e_update : M -> mat -> vec -> M * option exn;             (* model.updateModel *)
  e_params : M -> option vec;                               (* model.get_model_parameters; None: no such method *)
  e_clock : nat -> Qc;                                      (* successive values of time.time() *)
  e_lg : Qc -> Qc;                                          (* np.log *)
  e_costfit : cost_fit }.
Arguments env : clear implicits.

(** The attributes of the object that change (bo.py:51-58, 101-136, 206-212) and the part of the outside world the loop
    acts on: the calls of the objective made in this process, the number of clock readings, and, as a record for the
    specifications only, the data each model update received. *)
Record st {M : Type} := mk_st {
  s_X : mat; s_Y : option vec; s_cost : costmodel; s_model : M; s_params : option mat;
  s_ctx : option (list (string * Qc)); s_num : nat; s_cum : Qc; s_sugg : mat; s_ynew : option vec;
  s_report : option (vec * vec * Qc);                       (* Y_best, x_opt, fx_opt *)
  s_hist : list vec; s_tick : nat; s_updates : list (nat * mat * vec) }.
Arguments st : clear implicits.

Section BO.
Context {M : Type}.
Notation env := (env M).
Notation st := (st M).

Definition set_X (s : st) (X : mat) : st :=
  mk_st M X (s_Y s) (s_cost s) (s_model s) (s_params s) (s_ctx s) (s_num s) (s_cum s) (s_sugg s) (s_ynew s) (s_report s) (s_hist s) (s_tick s) (s_updates s).
Definition set_Y (s : st) (Y : option vec) : st :=
  mk_st M (s_X s) Y (s_cost s) (s_model s) (s_params s) (s_ctx s) (s_num s) (s_cum s) (s_sugg s) (s_ynew s) (s_report s) (s_hist s) (s_tick s) (s_updates s).
Definition set_cost (s : st) (c : costmodel) : st :=
  mk_st M (s_X s) (s_Y s) c (s_model s) (s_params s) (s_ctx s) (s_num s) (s_cum s) (s_sugg s) (s_ynew s) (s_report s) (s_hist s) (s_tick s) (s_updates s).
Definition set_model (s : st) (m : M) : st :=
  mk_st M (s_X s) (s_Y s) (s_cost s) m (s_params s) (s_ctx s) (s_num s) (s_cum s) (s_sugg s) (s_ynew s) (s_report s) (s_hist s) (s_tick s) (s_updates s).
Definition set_params (s : st) (p : option mat) : st :=
  mk_st M (s_X s) (s_Y s) (s_cost s) (s_model s) p (s_ctx s) (s_num s) (s_cum s) (s_sugg s) (s_ynew s) (s_report s) (s_hist s) (s_tick s) (s_updates s).
Definition set_ctx (s : st) (c : option (list (string * Qc))) : st :=
  mk_st M (s_X s) (s_Y s) (s_cost s) (s_model s) (s_params s) c (s_num s) (s_cum s) (s_sugg s) (s_ynew s) (s_report s) (s_hist s) (s_tick s) (s_updates s).
Definition set_num (s : st) (n : nat) : st :=
  mk_st M (s_X s) (s_Y s) (s_cost s) (s_model s) (s_params s) (s_ctx s) n (s_cum s) (s_sugg s) (s_ynew s) (s_report s) (s_hist s) (s_tick s) (s_updates s).
Definition set_cum (s : st) (q : Qc) : st :=
  mk_st M (s_X s) (s_Y s) (s_cost s) (s_model s) (s_params s) (s_ctx s) (s_num s) q (s_sugg s) (s_ynew s) (s_report s) (s_hist s) (s_tick s) (s_updates s).
Definition set_sugg (s : st) (X : mat) : st :=
  mk_st M (s_X s) (s_Y s) (s_cost s) (s_model s) (s_params s) (s_ctx s) (s_num s) (s_cum s) X (s_ynew s) (s_report s) (s_hist s) (s_tick s) (s_updates s).
Definition set_ynew (s : st) (Y : option vec) : st :=
  mk_st M (s_X s) (s_Y s) (s_cost s) (s_model s) (s_params s) (s_ctx s) (s_num s) (s_cum s) (s_sugg s) Y (s_report s) (s_hist s) (s_tick s) (s_updates s).
Definition set_report (s : st) (r : option (vec * vec * Qc)) : st :=
  mk_st M (s_X s) (s_Y s) (s_cost s) (s_model s) (s_params s) (s_ctx s) (s_num s) (s_cum s) (s_sugg s) (s_ynew s) r (s_hist s) (s_tick s) (s_updates s).
Definition set_world (s : st) (h : list vec) (t : nat) : st :=
  mk_st M (s_X s) (s_Y s) (s_cost s) (s_model s) (s_params s) (s_ctx s) (s_num s) (s_cum s) (s_sugg s) (s_ynew s) (s_report s) h t (s_updates s).
Definition add_update (s : st) (X : mat) (Y : vec) : st :=
  mk_st M (s_X s) (s_Y s) (s_cost s) (s_model s) (s_params s) (s_ctx s) (s_num s) (s_cum s) (s_sugg s) (s_ynew s) (s_report s) (s_hist s) (s_tick s) (s_updates s ++ [(s_num s, X, Y)]).

(** bo.py:43-58 BO.__init__ *)
Definition bo_init (X : mat) (Y : option vec) (cost : costarg) (m : M) : st :=
  mk_st M X Y (cost_model cost) m None None 0 q0 [] None None [] 0 [].

(** bo.py:263-267 _save_model_parameter_values.  The parameters are one row. *)
Definition save_params (E : env) (s : st) : st * res unit :=
  match e_params E (s_model s), s_params s with
  | None, _ => (s, Raise AttributeError)
  | Some p, None => (set_params s (Some [p]), Ok tt)
  | Some p, Some H => match vstack H [p] with
              | Ok H' => (set_params s (Some H'), Ok tt)
              | Raise e => (s, Raise e)
              end
  end.

(** general.py:203-234 normalize on a column: with no rows the shape test fails; the rest is Util.v *)
Definition normalized (nf : option (vec -> vec)) (Y : vec) : res vec :=
  match nf with
  | None => Ok Y
  | Some f => match Y with [] => Raise NotImplementedError | _ => Ok (f Y) end
  end.
(** bo.py:243-261 _update_model.  Y is never None when it is called by the loop; np.asarray(None) is outside the model. *)
Definition update_model (E : env) (s : st) : st * res unit :=
  if Z.eqb (e_interval E) 0 then (s, Raise ZeroDivisionError)
  else if Z.eqb (Z.of_nat (s_num s) mod e_interval E) 0 then
    match unzip_inputs (e_space E) (s_X s), s_Y s with
    | Raise e, _ => (s, Raise e)
    | Ok _, None => (s, Raise OutOfModel)
    | Ok Xm, Some Y =>
        match normalized (e_norm E) Y with
        | Raise e => (s, Raise e)
        | Ok Ym =>
            let s := add_update s Xm Ym in
            match e_update E (s_model s) Xm Ym with
            | (m, None) => save_params E (set_model s m)
            | (m, Some e) => (set_model s m, Raise e)
            end
        end
    end
  else save_params E s.

(** bo.py:223-241 _compute_next_evaluations *)
Definition compute_next_evaluations (E : env) (s : st) (pending ignored : option mat) : st * run mat :=
  match context_manager (e_space E) (s_ctx s) with
  | Raise e => (s, Some (Raise e))
  | Ok cm =>
      let odm := if e_dedup E then Some (duplicate_manager (e_space E) (s_X s) pending ignored) else None in
      match e_batch E (s_model s) odm cm with
      | (m, r) => (set_model s m, b <~ r ;; Some (zip_inputs (e_space E) b))
      end
  end.

(** bo.py:60-76 suggest_next_locations *)
Definition suggest_next_locations (E : env) (s : st) (ctx : option (list (string * Qc))) (pending ignored : option mat)
  : st * run mat :=
  let s := set_ctx (set_num (set_params s None) 0) ctx in
  match update_model E s with
  | (s, Raise e) => (s, Some (Raise e))
  | (s, Ok _) => compute_next_evaluations E s pending ignored
  end.

(** bo.py:214-221 _distance_last_evaluations() <= eps: sqrt(d2) <= eps stated without the square root; with fewer than
    two rows the distance is infinite. *)
Definition sqdist (a b : vec) : Qc := qsum (map (fun p => ((fst p - snd p) * (fst p - snd p))%Qc) (combine a b)).
Definition last_two_close (eps : Qc) (X : mat) : bool :=
  match rev X with
  | a :: b :: _ => qcle q0 eps && qcle (sqdist a b) (eps * eps)%Qc
  | _ => false
  end.

(** bo.py:198-204 evaluate_objective *)
Definition evaluate_objective (E : env) (o : objective) (s : st) : st * run unit :=
  match evaluate o (e_clock E) (s_hist s) (s_tick s) (s_sugg s) with
  | (h, t, None) => (set_world s h t, None)
  | (h, t, Some (Raise e)) => (set_world s h t, Some (Raise e))
  | (h, t, Some (Ok (ys, cs))) =>
      let s := set_ynew (set_world s h t) (Some ys) in
      match update_cost_model (e_lg E) (e_costfit E) (s_cost s) (s_sugg s) cs with
      | (c, Raise e) => (set_cost s c, Some (Raise e))
      | (c, Ok _) =>
          let s := set_cost s c in
          (set_Y s (match s_Y s with Some Y => Some (Y ++ ys) | None => None end), Some (Ok tt))
      end
  end.

(** general.py:131-142 best_value: Y[:i+1].min() for every i *)
Definition best_value (Y : vec) : vec :=
  map (fun i => match firstn (S i) Y with [] => q0 | a :: t => lmin a t end) (seq 0 (length Y)).
(** bo.py:206-212 _compute_results *)
Definition compute_results (s : st) : st * res unit :=
  match s_Y s with
  | None => (s, Raise OutOfModel)
  | Some Y =>
      match argmin Y with
      | None => (s, Raise ValueError)
      | Some i =>
          match get (s_X s) i, py_min Y with
          | Ok x, Ok m => (set_report s (Some (best_value Y, x, m)), Ok tt)
          | _, _ => (s, Raise IndexError)
          end
      end
  end.

(** max_time > cum_time, num_acquisitions >= max_iter with None as infinity *)
Definition time_left (mt : option Qc) (cum : Qc) : bool := match mt with None => true | Some t => qclt cum t end.
Definition iters_done (mi : option Qc) (n : nat) : bool := match mi with None => false | Some q => qcle q (nat2q n) end.

(** bo.py:139-164 the while loop.  [fuel] bounds the number of iterations; None when it is exhausted.  [z] is the value of
    time_zero. *)
Fixpoint loop (fuel : nat) (E : env) (o : objective) (mi mt : option Qc) (eps z : Qc) (s : st) : st * run unit :=
  match fuel with
  | O => (s, None)
  | S fuel =>
      if time_left mt (s_cum s) then
        match update_model E s with
        | (s, Raise LinAlgError) => (s, Some (Ok tt))
        | (s, Raise e) => (s, Some (Raise e))
        | (s, Ok _) =>
            if iters_done mi (s_num s) || (Nat.ltb 1 (length (s_X s)) && last_two_close eps (s_X s)) then (s, Some (Ok tt))
            else
              match compute_next_evaluations E s None None with
              | (s, None) => (s, None)
              | (s, Some (Raise e)) => (s, Some (Raise e))
              | (s, Some (Ok b)) =>
                  let s := set_sugg s b in
                  match vstack (s_X s) b with
                  | Raise e => (s, Some (Raise e))
                  | Ok X' =>
                      match evaluate_objective E o (set_X s X') with
                      | (s, Some (Ok _)) =>
                          let s := set_cum (set_world s (s_hist s) (S (s_tick s))) (e_clock E (s_tick s) - z)%Qc in
                          loop fuel E o mi mt eps z (set_num s (S (s_num s)))
                      | (s, r) => (s, r)
                      end
                  end
              end
        end
      else (s, Some (Ok tt))
  end.

(** bo.py:125-129 the initial evaluation *)
Definition initial_evaluation (E : env) (o : objective) (s : st) : st * run unit :=
  match s_Y s with
  | Some _ => (s, Some (Ok tt))
  | None =>
      match evaluate o (e_clock E) (s_hist s) (s_tick s) (s_X s) with
      | (h, t, None) => (set_world s h t, None)
      | (h, t, Some (Raise e)) => (set_world s h t, Some (Raise e))
      | (h, t, Some (Ok (ys, cs))) =>
          let s := set_Y (set_world s h t) (Some ys) in
          if is_time_cost (s_cost s) then
            match update_cost_model (e_lg E) (e_costfit E) (s_cost s) (s_X s) cs with
            | (c, Raise e) => (set_cost s c, Some (Raise e))
            | (c, Ok _) => (set_cost s c, Some (Ok tt))
            end
          else (s, Some (Ok tt))
      end
  end.

(** bo.py:78-167 run_optimization without the writing of files (170-175, see Report.v).  Printing and the flags verbosity
    and save_models_parameters have no effect on the attributes and are not modelled. *)
Definition run_optimization (fuel : nat) (E : env) (s : st) (max_iter max_time : lim) (eps : Qc)
  (ctx : option (list (string * Qc))) : st * run unit :=
  match e_obj E with
  | None => (s, Some (Raise InvalidConfigError))
  | Some o =>
      let s := set_ctx (set_params s None) ctx in
      match initial_evaluation E o s with
      | (s, Some (Ok _)) =>
          let z := e_clock E (s_tick s) in
          let s := set_world s (s_hist s) (S (s_tick s)) in
          let s := set_ynew (set_sugg (set_num (set_cum s q0) 0) (s_X s)) (s_Y s) in
          match loop fuel E o (fst (stop_conditions max_iter max_time)) (snd (stop_conditions max_iter max_time)) eps z s with
          | (s, Some (Ok _)) => let (s, r) := compute_results s in (s, Some r)
          | r => r
          end
      | r => r
      end
  end.

(** A history: any sequence of calls on one object, each with its own fuel.  Exceptions are caught by the user, who may go
    on; a call that never returns ends the history. *)
Inductive op :=
| ORun (fuel : nat) (max_iter max_time : lim) (eps : Qc) (ctx : option (list (string * Qc)))
| OSuggest (ctx : option (list (string * Qc))) (pending ignored : option mat).
Definition step (E : env) (s : st) (o : op) : st * run unit :=
  match o with
  | ORun fuel mi mt eps ctx => run_optimization fuel E s mi mt eps ctx
  | OSuggest ctx p i => let (s, r) := suggest_next_locations E s ctx p i in (s, _ <~ r ;; Some (Ok tt))
  end.

End BO.

(** ---------------------------------------------------------------- BayesianOptimization *)
(** bayesian_optimization.py:200-204 _sign *)
Definition sign (maximize : bool) (f : objfun) : objfun :=
  if maximize then fun h x => y <- f h x ;; Ok (- y)%Qc else f.

(** The arguments of BayesianOptimization that matter here (bayesian_optimization.py:67-76). *)
Record bo_args := mk_args {
  a_f : option objfun; a_space : space; a_X : option mat; a_Y : option vec;
  a_design : string; a_numdata : nat; a_maximize : bool; a_batch_size : nat; a_num_cores : nat; a_cost : costarg }.

(** bayesian_optimization.py:104-109: the objective; its number of processes is batch_size *)
Definition the_objective (a : bo_args) (fork : bool) : option objective :=
  match a_f a with
  | Some f => Some (mk_obj (sign (a_maximize a) f) (a_batch_size a) fork)
  | None => None
  end.

(** bayesian_optimization.py:183-198 _init_design_chooser: X, Y, and the calls and clock readings made.  [fuel], [dr], [U]
    are the fuel, random numbers and external unit design of initial_design. *)
Definition init_design_chooser (a : bo_args) (o : option objective) (clock : nat -> Qc) (fuel : nat) (dr : nat -> draws) (U : mat)
  : list vec * nat * run (mat * vec) :=
  match o, a_X a, a_Y a with
  | None, Some X, Some Y => ([], 0, Some (Ok (X, Y)))
  | None, _, _ => ([], 0, Some (Raise InvalidConfigError))
  | Some o, None, _ =>
      match initial_design fuel (a_design a) (a_space a) dr U (a_numdata a) with
      | None => ([], 0, None)
      | Some (Raise e) => ([], 0, Some (Raise e))
      | Some (Ok X) =>
          match evaluate o clock [] 0 X with (h, t, r) => (h, t, p <~ r ;; Some (Ok (X, fst p))) end
      end
  | Some o, Some X, None =>
      match evaluate o clock [] 0 X with (h, t, r) => (h, t, p <~ r ;; Some (Ok (X, fst p))) end
  | Some _, Some X, Some Y => ([], 0, Some (Ok (X, Y)))
  end.

(** bayesian_optimization.py:67-172 BayesianOptimization.__init__: the object and the cost function handed to the
    acquisition (line 178: self.cost.cost_withGradients of the first CostModel; line 169 and bo.py:53 wrap it again). *)
Definition bayesian_optimization {M} (a : bo_args) (fork : bool) (clock : nat -> Qc) (fuel : nat) (dr : nat -> draws) (U : mat)
  (m : M) : run (st M * costmodel) :=
  let inner := cost_model (a_cost a) in
  match init_design_chooser a (the_objective a fork) clock fuel dr U with
  | (h, t, r) =>
      p <~ r ;;
      Some (Ok (mk_st M (fst p) (Some (snd p)) (cost_model (ArgObject inner)) m None None 0 q0 [] None None h t [], inner))
  end.
