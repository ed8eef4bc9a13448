(** Suggesting points: context handling, duplicates, anchor points, local optimizers and the acquisition optimizer.
    Models GPyOpt/optimization/{acquisition_optimizer,optimizer,anchor_points_generator}.py and
    GPyOpt/util/duplicate_manager.py.  Definitions only.

    Acquisitions, their gradients and the external local optimizers are arguments:
    - an acquisition is a function of one model-space row that may raise (simplification: the code evaluates it on
      matrices, row by row);
    - a local optimizer receives what the code hands to scipy / DIRECT / cma and returns one vector. *)
From Coq Require Import String List ZArith QArith Qcanon Bool.
From Verif.Model Require Import Py Space Design.
Import ListNotations.
Local Open Scope nat_scope.

(** A computation that may not have finished within the given fuel (only the rejection sampler of a constrained
    random design can run for ever). *)
Definition run (A : Type) := option (res A).
Definition rbind {A B} (r : run A) (k : A -> run B) : run B :=
  match r with None => None | Some (Ok a) => k a | Some (Raise e) => Some (Raise e) end.
Notation "x <~ r ;; k" := (rbind r (fun x => k)) (at level 60, r at next level, right associativity).

Definition mem (i : nat) (l : list nat) : bool := existsb (Nat.eqb i) l.

(** ---------------------------------------------------------------- ContextManager *)
(** Attributes of a ContextManager. acquisition_optimizer.py:88-113 *)
Record ctxmgr := mk_cm {
  cm_space : space;
  cm_context_index : list nat;
  cm_context_index_obj : list nat;
  cm_context_value : vec;
  cm_noncontext_index : list nat;
  cm_noncontext_bounds : list (Qc * Qc);
  cm_nocontext_index_obj : list nat }.

(** acquisition_optimizer.py:102-106 the loop over the context dictionary (an association list in insertion order).
    Simplification: context values are numbers; a number for a bandit variable cannot be added to a list
    (TypeError). *)
Fixpoint context_loop (sp : space) (ctx : list (string * Qc)) (ci co : list nat) (cv : vec)
  : res (list nat * list nat * vec) :=
  match ctx with
  | [] => Ok (ci, co, cv)
  | (n, x) :: t =>
      v <- find_variable sp n ;;
      e <- (if is_bandit (x_kind v) then Raise TypeError else var_objective_to_model v x) ;;
      context_loop sp t (ci ++ x_idx_mod v) (co ++ x_idx_obj v) (cv ++ e)
  end.

(** acquisition_optimizer.py:88-113 ContextManager.__init__ *)
Definition context_manager (sp : space) (ctx : option (list (string * Qc))) : res ctxmgr :=
  bs <- get_bounds sp ;;
  let all := seq 0 (model_dimensionality sp) in
  let all_obj := seq 0 (length (sp_config_expanded sp)) in
  match ctx with
  | None => Ok (mk_cm sp [] [] [] all bs all_obj)
  | Some c =>
      t <- context_loop sp c [] [] [] ;;
      let ci := fst (fst t) in
      let co := snd (fst t) in
      let nci := filter (fun i => negb (mem i ci)) all in
      nb <- mapM (get bs) nci ;;
      Ok (mk_cm sp ci co (snd t) nci nb (filter (fun i => negb (mem i co)) all_obj))
  end.

(** acquisition_optimizer.py:117-126 _expand_vector on one row; numpy broadcasts a single column *)
Definition expand_row (cm : ctxmgr) (x : vec) : res vec :=
  let n := length (cm_noncontext_index cm) in
  x' <- (if Nat.eqb (length x) n then Ok x
         else match x with [a] => Ok (repeat a n) | _ => Raise ValueError end) ;;
  Ok (set_cols (set_cols (repeat q0 (model_dimensionality (cm_space cm))) (cm_noncontext_index cm) x')
               (cm_context_index cm) (cm_context_value cm)).
Definition expand_vector (cm : ctxmgr) (X : mat) : res mat := mapM (expand_row cm) (atleast_2d X).

(** ---------------------------------------------------------------- OptimizationWithContext *)
Definition acqf := vec -> res Qc.
Definition acqg := vec -> res (Qc * vec).
(** optimizer.py:194 x0[:, noncontext_index] *)
Definition x0_nocontext (cm : ctxmgr) (x0 : vec) : res vec := mapM (get x0) (cm_noncontext_index cm).
(** optimizer.py:203-213 f_nc on one row *)
Definition f_nc (cm : ctxmgr) (f : acqf) : acqf := fun v => row <- expand_row cm v ;; f row.
(** optimizer.py:226-235 f_df_nc on one row (215-224 df_nc returns its second component) *)
Definition f_df_nc (cm : ctxmgr) (g : acqg) : acqg :=
  fun v => row <- expand_row cm v ;; p <- g row ;; d <- mapM (get (snd p)) (cm_noncontext_index cm) ;; Ok (fst p, d).

(** ---------------------------------------------------------------- DuplicateManager *)
Fixpoint veqb (a b : vec) : bool :=
  match a, b with
  | [], [] => true
  | x :: a', y :: b' => qceq x y && veqb a' b'
  | _, _ => false
  end.
Definition vmem (x : vec) (l : list vec) : bool := existsb (veqb x) l.

(** np.any of a matrix or None *)
Definition np_any (M : option mat) : bool :=
  match M with None => false | Some M => existsb (existsb (fun x => negb (qceq x q0))) M end.

(** duplicate_manager.py:17-29 DuplicateManager.__init__: the set of tuples, as a list *)
Record dupmgr := mk_dm { dm_space : space; dm_points : list vec }.
Definition duplicate_manager (sp : space) (X : mat) (pending ignored : option mat) : dupmgr :=
  mk_dm sp (X ++ (if np_any pending then match pending with Some P => P | None => [] end else [])
              ++ (if np_any ignored then match ignored with Some P => P | None => [] end else [])).

(** duplicate_manager.py:32-36 is_zipped_x_duplicate *)
Definition is_zipped_x_duplicate (dm : dupmgr) (x : vec) : bool := vmem x (dm_points dm).
(** evaluators/base.py:90-96 zip_and_tuple, and the argument of duplicate_manager.py:42 *)
Definition zip_and_tuple (sp : space) (x : vec) : res vec := Z <- zip_inputs sp [x] ;; Ok (concat Z).
(** duplicate_manager.py:38-42 is_unzipped_x_duplicate *)
Definition is_unzipped_x_duplicate (dm : dupmgr) (x : vec) : res bool :=
  t <- zip_and_tuple (dm_space dm) x ;; Ok (is_zipped_x_duplicate dm t).
(** "duplicate_manager and duplicate_manager.is_unzipped_x_duplicate(x)": optimizer.py:155, 166;
    anchor_points_generator.py:48-52 *)
Definition is_dup (odm : option dupmgr) (x : vec) : res bool :=
  match odm with Some dm => is_unzipped_x_duplicate dm x | None => Ok false end.

(** ---------------------------------------------------------------- AnchorPointsGenerator *)
(** lexicographic order of tuples *)
Fixpoint lexlt (a b : vec) : bool :=
  match a, b with
  | [], [] => false
  | [], _ :: _ => true
  | _ :: _, [] => false
  | x :: a', y :: b' => if qceq x y then lexlt a' b' else qclt x y
  end.
Fixpoint insert_lex (x : vec) (l : mat) : mat :=
  match l with
  | [] => [x]
  | h :: t => if veqb x h then l else if lexlt x h then x :: l else h :: insert_lex x t
  end.
(** sorted(list({tuple(x) for x in X})): anchor_points_generator.py:40 *)
Definition sort_unique (X : mat) : mat := fold_right insert_lex [] X.

(** What one call of AnchorPointsGenerator.get draws from the outside: fuel and random numbers of the design,
    the external unit-cube design, and the (unstable) argsort of numpy. *)
Record gen := mk_gen { g_fuel : nat; g_dr : nat -> draws; g_U : mat; g_argsort : vec -> list nat }.

(** anchor_points_generator.py:28-34 the space the design is drawn in *)
Definition anchor_space (sp : space) (ocm : option ctxmgr) : res space :=
  match ocm with
  | Some cm =>
      if has_bandit sp then Ok sp
      else ds <- mapM (get (sp_config_expanded sp)) (cm_nocontext_index_obj cm) ;;
           design_space ds (sp_constraints (cm_space cm))
  | None => Ok sp
  end.
Definition anchor_add_context (sp : space) (ocm : option ctxmgr) (X : mat) : res mat :=
  match ocm with
  | Some cm => if has_bandit sp then Ok X else expand_vector cm X
  | None => Ok X
  end.

(** anchor_points_generator.py:54, 63 the rows that are not duplicates *)
Fixpoint filter_new (odm : option dupmgr) (X : mat) : res mat :=
  match X with
  | [] => Ok []
  | x :: t => d <- is_dup odm x ;; r <- filter_new odm t ;; Ok (if d then r else x :: r)
  end.

(** anchor_points_generator.py:28-45 the candidate rows; [ns] = num_samples *)
Definition anchor_candidates (sp : space) (design : string) (ns : nat) (g : gen) (unique : bool) (ocm : option ctxmgr)
  : run mat :=
  sub <~ Some (anchor_space sp ocm) ;;
  X <~ initial_design (g_fuel g) design sub (g_dr g) (g_U g) ns ;;
  Some (
    Z <- (if unique then match sort_unique X with [] => Raise ValueError | U => unzip_inputs sub U end
          else unzip_inputs sub X) ;;
    anchor_add_context sp ocm Z).
(** anchor_points_generator.py:25-69 AnchorPointsGenerator.get; [scores] = get_anchor_point_scores *)
Definition anchor_get (sp : space) (design : string) (ns : nat) (g : gen) (scores : mat -> res vec)
  (num_anchor : nat) (odm : option dupmgr) (unique : bool) (ocm : option ctxmgr) : run mat :=
  W <~ anchor_candidates sp design ns g unique ocm ;;
  Some (
    V <- filter_new odm W ;;
    match V with
    | [] => Raise FullyExplored
    | _ =>
        s <- scores V ;;
        mapM (get V) (firstn (Nat.min (length s) num_anchor) (g_argsort g s))
    end).

(** anchor_points_generator.py:102-104 ObjectiveAnchorPointsGenerator *)
Definition objective_scores (f : acqf) (X : mat) : res vec := mapM f X.
(** anchor_points_generator.py:84-88 ThompsonSamplingAnchorPointsGenerator: np.random.normal(m, s) = m + s * n_i,
    ValueError for a negative deviation *)
Fixpoint thompson_from (predict : vec -> res (Qc * Qc)) (nrm : nat -> Qc) (i : nat) (X : mat) : res vec :=
  match X with
  | [] => Ok []
  | x :: t =>
      p <- predict x ;;
      if qclt (snd p) q0 then Raise ValueError
      else r <- thompson_from predict nrm (S i) t ;; Ok ((fst p + snd p * nrm i)%Qc :: r)
  end.
Definition thompson_scores (predict : vec -> res (Qc * Qc)) (nrm : nat -> Qc) (X : mat) : res vec :=
  thompson_from predict nrm 0 X.
(** anchor_points_generator.py:116-118 RandomAnchorPointsGenerator: range(X.shape[0]) *)
Definition random_scores (X : mat) : res vec := Ok (map nat2q (seq 0 (length X))).

(** ---------------------------------------------------------------- local optimizers *)
Inductive optname := OLbfgs | ODirect | OCma.
(** optimizer.py:238-253 choose_optimizer *)
Definition choose_optimizer (n : string) : res optname :=
  if String.eqb n "lbfgs" then Ok OLbfgs
  else if String.eqb n "DIRECT" then Ok ODirect
  else if String.eqb n "CMA" then Ok OCma
  else Raise InvalidVariableNameError.

(** What the external solver (scipy's L-BFGS-B, DIRECT, cma) does: bounds, start, function, gradient. *)
Definition local_opt := list (Qc * Qc) -> vec -> acqf -> option acqg -> res vec.
(** optimizer.py:36-61, 74-94, 107-130 the optimize methods: the solver's result, except that CMA refuses
    one-dimensional problems.  (OptLbfgs returns the start when scipy reports an abnormal termination: this is one
    of the behaviours of an arbitrary [ext].) *)
Definition run_optimizer (o : optname) (bounds : list (Qc * Qc)) (ext : local_opt) (x0 : vec) (f : acqf) (g : option acqg)
  : res vec :=
  match o with
  | OCma => if Nat.eqb (length bounds) 1 then Raise IndexError else ext bounds x0 f g
  | _ => ext bounds x0 f g
  end.

(** optimizer.py:133-171 apply_optimizer.  A rounding with several rows (several bandit variables) is OutOfModel. *)
Definition apply_optimizer (op : vec -> acqf -> option acqg -> res vec) (x0 : vec) (f : acqf) (g : option acqg)
  (odm : option dupmgr) (ocm : option ctxmgr) (sp : space) : res (vec * Qc) :=
  x0n <- match ocm with Some cm => x0_nocontext cm x0 | None => Ok x0 end ;;
  d0 <- is_dup odm x0 ;;
  if d0 then Raise ValueError
  else
    ox <- match ocm with
          | Some cm => op x0n (f_nc cm f) (match g with Some h => Some (f_df_nc cm h) | None => None end)
          | None => op x0n f g
          end ;;
    sx <- match ocm with Some cm => expand_row cm ox | None => Ok ox end ;;
    rs <- round_optimum sp [sx] ;;
    match rs with
    | [r] =>
        d <- is_dup odm r ;;
        if d then fx <- f x0 ;; Ok (x0, fx) else fx <- f r ;; Ok (r, fx)
    | _ => Raise OutOfModel
    end.

(** ---------------------------------------------------------------- AcquisitionOptimizer *)
(** The acquisition object as the optimizer and the evaluators see it: space, acquisition function, gradient (None when
    not analytical), name of the local optimizer, anchor logic, scores for Thompson sampling (None: no model passed),
    and the context manager currently installed.  acquisition_optimizer.py:27-44, acquisitions/base.py:18-27 *)
Record acq := mk_acq {
  aq_space : space; aq_f : acqf; aq_g : option acqg; aq_optimizer : string; aq_logic : string;
  aq_ts : option (mat -> res vec); aq_cm : ctxmgr }.

(** run the comprehension of line 73: the optimizer of anchor number [k] is [loc k] *)
Fixpoint mapMi {A B} (f : nat -> A -> res B) (k : nat) (l : list A) : res (list B) :=
  match l with
  | [] => Ok []
  | a :: t => b <- f k a ;; bs <- mapMi f (S k) t ;; Ok (b :: bs)
  end.

(** acquisition_optimizer.py:59-70 the anchor points of optimize.  [ns] is the number of design points (1000 for the
    objective logic, 25000 for Thompson sampling). *)
Definition acq_anchors (a : acq) (ns : nat) (g : gen) (odm : option dupmgr) : run mat :=
  if String.eqb (aq_logic a) "max_objective" then
    anchor_get (aq_space a) "random" ns g (objective_scores (aq_f a)) 5 odm false (Some (aq_cm a))
  else if String.eqb (aq_logic a) "thompson_sampling" then
    match aq_ts a with
    | Some ts => anchor_get (aq_space a) "sobol" ns g ts 5 odm false (Some (aq_cm a))
    | None => Some (Raise AttributeError)
    end
  else Some (Raise UnboundLocalError).
(** acquisition_optimizer.py:47-78 optimize with acquisitions/base.py:54-62. *)
Definition acq_optimize (a : acq) (ns : nat) (g : gen) (loc : nat -> local_opt) (odm : option dupmgr) : run (vec * Qc) :=
  o <~ Some (choose_optimizer (aq_optimizer a)) ;;
  anchors <~ acq_anchors a ns g odm ;;
  Some (
    pts <- mapMi (fun k x0 => apply_optimizer (run_optimizer o (cm_noncontext_bounds (aq_cm a)) (loc k)) x0
                                (aq_f a) (aq_g a) odm (Some (aq_cm a)) (aq_space a)) 0 anchors ;;
    match argmin (map snd pts) with
    | Some i => get pts i
    | None => Raise ValueError
    end).

(** ---------------------------------------------------------------- evaluators *)
(** evaluators/sequential.py:21-27 *)
Definition sequential_batch (a : acq) (ns : nat) (g : gen) (loc : nat -> local_opt) (odm : option dupmgr) : run mat :=
  p <~ acq_optimize a ns g loc odm ;; Some (Ok [fst p]).

(** evaluators/base.py:61-80 the loop over the anchor points, [k] counts them *)
Fixpoint batch_loop (sp : space) (size : nat) (opt : nat -> vec -> res vec) (k : nat) (anchors batch : mat)
  (seen : list vec) : res mat :=
  match anchors with
  | [] => Ok batch
  | a :: t =>
      x <- opt k a ;;
      zx <- zip_and_tuple sp x ;;
      st <- (if vmem zx seen then
               za <- zip_and_tuple sp a ;;
               if vmem za seen then Ok (batch, seen) else Ok (batch ++ [a], za :: seen)
             else Ok (batch ++ [x], zx :: seen)) ;;
      if Nat.eqb (length (fst st)) size then Ok (fst st)
      else batch_loop sp size opt (S k) t (fst st) (snd st)
  end.

(** evaluators/base.py:41-86 compute_batch with a duplicate manager, after the anchors and x0 were computed.
    np.vstack of an empty list is a ValueError. *)
Definition dedup_batch (sp : space) (size : nat) (opt : nat -> vec -> res vec) (dm : dupmgr) (anchors : mat)
  (x0 : option vec) : res mat :=
  st <- match x0 with
        | Some x => if np_any (Some [x]) then zx <- zip_and_tuple sp x ;; Ok ([x], zx :: dm_points dm)
                    else Ok ([], dm_points dm)
        | None => Ok ([], dm_points dm)
        end ;;
  b <- batch_loop sp size opt 0 anchors (fst st) (snd st) ;;
  match b with [] => Raise ValueError | _ => Ok b end.

(** evaluators/batch_random.py:22-45 (initialize_batch 22-26, get_anchor_points 28-35, optimize_anchor_point 37-39,
    compute_batch_without_duplicate_logic 41-45): RandomBatch.compute_batch (with base.py:41-86).  [ns], [g], [loc] serve
    acquisition.optimize, [ns'], [g'] the anchor points (10000 samples in the code).
    Line 45 for the case without duplicate manager: anchor_points[:(batch_size - 1), :]. *)
Definition random_anchors (a : acq) (size ns' : nat) (g' : gen) (odm : option dupmgr) : run mat :=
  anchor_get (aq_space a) "random" ns' g' random_scores (5 * size) odm
    (match odm with Some _ => true | None => false end) (Some (aq_cm a)).
Definition random_batch (a : acq) (size ns ns' : nat) (g g' : gen) (loc : nat -> local_opt) (odm : option dupmgr) : run mat :=
  match odm with
  | None =>
      p <~ acq_optimize a ns g loc None ;;
      anchors <~ random_anchors a size ns' g' None ;;
      Some (Ok (fst p :: match size with O => removelast anchors | S k => firstn k anchors end))
  | Some dm =>
      anchors <~ random_anchors a size ns' g' odm ;;
      p <~ acq_optimize a ns g loc odm ;;
      Some (dedup_batch (aq_space a) size (fun _ x => Ok x) dm anchors (Some (fst p)))
  end.

(** evaluators/batch_thompson.py:27-54 (initialize_batch 27-29, get_anchor_points 31-37, optimize_anchor_point 39-50,
    compute_batch_without_duplicate_logic 52-54): ThompsonBatch.  The local optimizer is always L-BFGS, f_df is always given;
    [ocm] is the context manager passed to compute_batch. *)
Definition thompson_point (a : acq) (loc : nat -> local_opt) (odm : option dupmgr) (ocm : option ctxmgr) (k : nat) (x0 : vec)
  : res vec :=
  bs <- match ocm with Some cm => Ok (cm_noncontext_bounds cm) | None => get_bounds (aq_space a) end ;;
  p <- apply_optimizer (run_optimizer OLbfgs bs (loc k)) x0 (aq_f a) (aq_g a) odm ocm (aq_space a) ;;
  rs <- round_optimum (aq_space a) [fst p] ;;
  match rs with [r] => Ok r | _ => Raise OutOfModel end.
Definition thompson_batch (a : acq) (ts : mat -> res vec) (size ns' : nat) (g' : gen) (loc : nat -> local_opt)
  (odm : option dupmgr) (ocm : option ctxmgr) : run mat :=
  anchors <~ anchor_get (aq_space a) "random" ns' g' ts (5 * size) odm
               (match odm with Some _ => true | None => false end) ocm ;;
  Some (match odm with
        | None => b <- mapMi (thompson_point a loc None ocm) 0 (firstn size anchors) ;;
                  match b with [] => Raise ValueError | _ => Ok b end
        | Some dm => dedup_batch (aq_space a) size (thompson_point a loc odm ocm) dm anchors None
        end).

(** evaluators/batch_local_penalization.py:22-49 LocalPenalization.compute_batch.  The AcquisitionLP object has one
    piece of state, the rows it penalises (X_batch, LP.py:36, 40-46).  [aopt k P] is acquisition.optimize()[0] of call
    number [k] when the acquisition penalises [P]; estimate_L and the minimum of the model only set the size of the
    penalties and are not modelled.  Result: the final state, the states in which optimize was called, and the batch.
    Neither the duplicate manager nor the context manager argument is used by the code. *)
Fixpoint lp_loop (aopt : nat -> option mat -> run vec) (n k : nat) (batch : mat) (calls : list (option mat))
  : option mat * list (option mat) * run mat :=
  match n with
  | O => (None, calls, Some (Ok batch))                         (* update_batches(None,None,None); return *)
  | S m =>
      let st := Some batch in                                   (* update_batches(X_batch,L,Min) *)
      match aopt k st with
      | Some (Ok x) => lp_loop aopt m (S k) (batch ++ [x]) (calls ++ [st])
      | Some (Raise e) => (st, calls ++ [st], Some (Raise e))
      | None => (st, calls ++ [st], None)
      end
  end.
Definition lp_batch (size : nat) (aopt : nat -> option mat -> run vec) (st : option mat)
  : option mat * list (option mat) * run mat :=
  match aopt 0 None with
  | Some (Ok x) => lp_loop aopt (size - 1) 1 [x] [None]
  | Some (Raise e) => (None, [None], Some (Raise e))
  | None => (None, [None], None)
  end.

(** The evaluators of core/evaluators/ (their selection by name: Driver.v, Options.v) *)
Inductive evaluator := ESequential | ERandom | ELP | EThompson.

(** batch_local_penalization.py:22-49 with its arguments: [pen P] is the acquisition penalising the rows [P]
    (acquisitions/LP.py); optimize is called without a duplicate manager (lines 32, 43), the arguments
    duplicate_manager and context_manager are not used. *)
Definition lp_compute_batch (size : nat) (pen : option mat -> acq) (ns : nat) (g : nat -> gen) (loc : nat -> nat -> local_opt)
  (odm : option dupmgr) (ocm : option ctxmgr) (st : option mat) : option mat * list (option mat) * run mat :=
  lp_batch size (fun k P => p <~ acq_optimize (pen P) ns (g k) (loc k) None ;; Some (Ok (fst p))) st.
