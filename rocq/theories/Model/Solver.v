(** GPyOpt/optimization/optimizer.py: the wrappers around scipy's L-BFGS-B, DIRECT and cma, and what a call of
    apply_optimizer hands to them.  Definitions only.  The external solvers are arguments. *)
From Coq Require Import String List ZArith QArith Qcanon Bool.
From Verif.Model Require Import Py Space Design Optim.
Import ListNotations.
Local Open Scope nat_scope.

(** What scipy.optimize.fmin_l_bfgs_b is given as function: the function alone with approx_grad=True, or a function that
    returns value and gradient. *)
Inductive lbfgs_fun := Approx (f : acqf) | Exact (fg : vec -> res (Qc * vec)).
(** and what it returns: res[0], res[1], and whether res[2]['task'] is b'ABNORMAL_TERMINATION_IN_LNSRCH' *)
Record lbfgs_answer := mk_la { la_x : vec; la_f : Qc; la_abnormal : bool }.
(** function, x0, bounds, maxiter *)
Definition lbfgs := lbfgs_fun -> vec -> list (Qc * Qc) -> nat -> res lbfgs_answer.
(** DIRECT.solve and cma.fmin(..)[0]: function, start (not used by DIRECT), lower and upper bounds, maxT (not used by cma).
    None: the library is not installed. *)
Definition box_solver := acqf -> vec -> vec -> vec -> nat -> res vec.

(** optimizer.py:36-61 OptLbfgs.optimize.  Line 44 without parentheses is a pair: df is called with a name that is not
    defined (NameError).  Simplification: the gradient of f_df is its first row already ([1][0] in line 47). *)
Definition lbfgs_optimize (solver : lbfgs) (bounds : list (Qc * Qc)) (maxiter : nat) (x0 : vec) (f : acqf)
  (df : option (vec -> res vec)) (f_df : option acqg) : res (vec * Qc) :=
  F <- match f_df, df with
       | None, Some _ => Raise NameError
       | Some g, _ => Ok (Exact (fun x => v <- f x ;; p <- g x ;; Ok (v, snd p)))
       | None, None => Ok (Approx f)
       end ;;
  a <- solver F x0 bounds maxiter ;;
  if la_abnormal a then v <- f x0 ;; Ok (x0, v) else Ok (la_x a, la_f a).

(** np.asarray(self.bounds)[:,0] and [:,1]: IndexError for an empty list *)
Definition columns (bounds : list (Qc * Qc)) : res (vec * vec) :=
  match bounds with [] => Raise IndexError | _ => Ok (map fst bounds, map snd bounds) end.
(** optimizer.py:74-94 OptDirect.optimize *)
Definition direct_optimize (lib : option box_solver) (bounds : list (Qc * Qc)) (maxiter : nat) (x0 : vec) (f : acqf) : res (vec * Qc) :=
  match lib with
  | None => Raise ImportError
  | Some solve => b <- columns bounds ;; x <- solve f x0 (fst b) (snd b) maxiter ;; v <- f x ;; Ok (x, v)
  end.
(** optimizer.py:107-130 OptCma.optimize *)
Definition cma_optimize (lib : option box_solver) (bounds : list (Qc * Qc)) (maxiter : nat) (x0 : vec) (f : acqf) : res (vec * Qc) :=
  if Nat.eqb (length bounds) 1 then Raise IndexError else
  match lib with
  | None => Raise ImportError
  | Some fmin => b <- columns bounds ;; x <- fmin f x0 (fst b) (snd b) maxiter ;; v <- f x ;; Ok (x, v)
  end.

(** The solvers of an installation. *)
Record solvers := mk_solvers { so_lbfgs : lbfgs; so_direct : option box_solver; so_cma : option box_solver }.
(** optimizer.py:238-253 choose_optimizer(name, bounds), then optimize; maxiter = 1000 (lines 32, 70, 103) *)
Definition optimize_with (ext : solvers) (name : string) (bounds : list (Qc * Qc)) (x0 : vec) (f : acqf)
  (df : option (vec -> res vec)) (f_df : option acqg) : res (vec * Qc) :=
  o <- choose_optimizer name ;;
  match o with
  | OLbfgs => lbfgs_optimize (so_lbfgs ext) bounds 1000 x0 f df f_df
  | ODirect => direct_optimize (so_direct ext) bounds 1000 x0 f
  | OCma => cma_optimize (so_cma ext) bounds 1000 x0 f
  end.

(** optimizer.py:184-201 OptimizationWithContext: the start, function and derivatives the optimizer gets.  With a context
    manager df is dropped unless f_df is given (and then recomputed from it, lines 215-224). *)
Definition problem (ocm : option ctxmgr) (x0 : vec) (f : acqf) (df : option (vec -> res vec)) (f_df : option acqg)
  : res (vec * acqf * option (vec -> res vec) * option acqg) :=
  match ocm with
  | None => Ok (x0, f, df, f_df)
  | Some cm =>
      x <- x0_nocontext cm x0 ;;
      match f_df with
      | None => Ok (x, f_nc cm f, None, None)
      | Some g => Ok (x, f_nc cm f, Some (fun v => p <- f_df_nc cm g v ;; Ok (snd p)), Some (f_df_nc cm g))
      end
  end.
(** optimizer.py:133-171 apply_optimizer, with the optimizer of name [name] and [bounds] *)
Definition apply_with (ext : solvers) (name : string) (bounds : list (Qc * Qc)) (x0 : vec) (f : acqf)
  (df : option (vec -> res vec)) (f_df : option acqg) (odm : option dupmgr) (ocm : option ctxmgr) (sp : space) : res (vec * Qc) :=
  pr <- problem ocm x0 f df f_df ;;
  let '(x0n, fn, dfn, gn) := pr in
  d0 <- is_dup odm x0 ;;
  if d0 then Raise ValueError
  else
    o <- optimize_with ext name bounds x0n fn dfn gn ;;
    sx <- match ocm with Some cm => expand_row cm (fst o) | None => Ok (fst o) end ;;
    rs <- round_optimum sp [sx] ;;
    match rs with
    | [r] =>
        d <- is_dup odm r ;;
        if d then fx <- f x0 ;; Ok (x0, fx) else fx <- f r ;; Ok (r, fx)
    | _ => Raise OutOfModel
    end.
