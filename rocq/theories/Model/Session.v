(** Evaluating the objective outside of GPyOpt: a new BayesianOptimization object with f = None for every suggestion, as in
    manual/GPyOpt_external_objective_evaluation.ipynb.  Definitions only. *)
From Coq Require Import String List ZArith QArith Qcanon Bool.
From Verif.Model Require Import Py Space Design Optim Objective BO.
Import ListNotations.
Local Open Scope nat_scope.

Section Session.
Context {M : Type}.

(** The settings of the object without the objective (bayesian_optimization.py:107-112: f is None). *)
Definition no_objective (E : env M) : env M :=
  mk_env M (e_space E) (e_dedup E) (e_interval E) (e_norm E) None (e_batch E) (e_update E) (e_params E) (e_clock E) (e_lg E) (e_costfit E).

(** BayesianOptimization(f=None, X=X, Y=Y) and suggest_next_locations on it (bayesian_optimization.py:183-188,
    bo.py:43-76).  [renew] makes the surrogate of a new object; the state of the random generators stays what it was.  The
    new state and the suggestion. *)
Definition ask (E : env M) (renew : M -> M) (cost : costarg) (m : M) (X : mat) (Y : vec) (ctx : option (list (string * Qc)))
  (pending ignored : option mat) : M * run mat :=
  let (s, r) := suggest_next_locations (no_objective E) (bo_init X (Some Y) cost (renew m)) ctx pending ignored in (s_model s, r).

(** The loop of the notebook, lines 132-139: ask, evaluate with the user's function (which was called on [h] before), append.
    [n] rounds. *)
Fixpoint ask_tell (n : nat) (E : env M) (renew : M -> M) (cost : costarg) (f : objfun) (ctx : option (list (string * Qc)))
  (m : M) (X : mat) (Y : vec) (h : list vec) : run (mat * vec * list vec) :=
  match n with
  | O => Some (Ok (X, Y, h))
  | S n =>
      let (m, r) := ask E renew cost m X Y ctx None None in
      b <~ r ;;
      match eval_rows f (e_clock E) h 0 b with
      | (h, _, Raise e) => Some (Raise e)
      | (h, _, Ok l) => X' <~ Some (vstack X b) ;; ask_tell n E renew cost f ctx m X' (Y ++ map fst l) h
      end
  end.

(** Several evaluations under way at the same time: suggestions are asked for with the unfinished ones as pending_X, and
    results come back in any order.  [ss_asked] are all rows that were ever suggested. *)
Inductive sop :=
| Ask (ctx : option (list (string * Qc))) (ignored : option mat)
| Tell (k : nat) (y : Qc).
Record session := mk_ss { ss_X : mat; ss_Y : vec; ss_pending : mat; ss_model : M; ss_asked : mat }.
Definition sstep (E : env M) (renew : M -> M) (cost : costarg) (s : session) (o : sop) : option session :=
  match o with
  | Ask ctx ignored =>
      let (m, r) := ask E renew cost (ss_model s) (ss_X s) (ss_Y s) ctx (match ss_pending s with [] => None | P => Some P end) ignored in
      match r with
      | None => None
      | Some (Raise _) => Some (mk_ss (ss_X s) (ss_Y s) (ss_pending s) m (ss_asked s))
      | Some (Ok b) => Some (mk_ss (ss_X s) (ss_Y s) (ss_pending s ++ b) m (ss_asked s ++ b))
      end
  | Tell k y =>
      match nth_error (ss_pending s) k with
      | None => Some s
      | Some x => Some (mk_ss (ss_X s ++ [x]) (ss_Y s ++ [y]) (firstn k (ss_pending s) ++ skipn (S k) (ss_pending s)) (ss_model s) (ss_asked s))
      end
  end.
Fixpoint srun (E : env M) (renew : M -> M) (cost : costarg) (s : session) (ops : list sop) : option session :=
  match ops with
  | [] => Some s
  | o :: t => match sstep E renew cost s o with None => None | Some s => srun E renew cost s t end
  end.
End Session.
Arguments session : clear implicits.
