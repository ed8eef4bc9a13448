(** Files written by an optimization: GPyOpt/core/bo.py:169-175, 312-403.  Definitions only.
    A line of the report is a label and the values in it; their layout as text (column widths, brackets, digits) is not described. *)
From Coq Require Import String List ZArith QArith Qcanon Bool.
From Verif.Model Require Import Py Space Design Optim Objective BO.
Import ListNotations.
Local Open Scope nat_scope.
Local Open Scope string_scope.

(** The values of attributes, as far as the report looks at them.  PAny: some value that is not looked at. *)
Inductive pyval :=
| PNone | PStr (s : string) | PNat (n : nat) | PInt (z : Z) | PNum (q : Qc) | PInf | PBool (b : bool)
| PMat (m : mat) | PCol (v : vec) | PSpace (sp : space) | PCost (c : costmodel) | POptimizer (name : string) | PList (n : nat) | PAny.
(** An object is its attributes; reading one that is not there raises AttributeError. *)
Definition obj := list (string * pyval).
Definition attr (o : obj) (n : string) : res pyval :=
  match List.find (fun p => String.eqb (fst p) n) o with Some p => Ok (snd p) | None => Raise AttributeError end.

(** The choices made when the object is constructed that the report mentions. *)
Record setup := mk_setup {
  u_name : string; u_numdata : nat; u_constraints : option nat; u_exact : bool; u_norm : bool; u_interval : Z;
  u_model : string; u_acquisition : string; u_optimizer : string; u_evaluator : string; u_batch : nat; u_cores : nat }.
Inductive class := Bayesian | Modular.

Section Objects.
Context {M : Type}.
Definition col (Y : option vec) : pyval := match Y with Some Y => PCol Y | None => PNone end.
(** bo.py:43-58 BO.__init__, with the values the attributes have in state [s] *)
Definition bo_attrs (u : setup) (sp : space) (s : st M) : obj :=
  [("model", PAny); ("space", PSpace sp); ("objective", PAny); ("acquisition", PAny); ("evaluator", PAny); ("normalize_Y", PBool (u_norm u));
   ("model_update_interval", PInt (u_interval u)); ("X", PMat (s_X s)); ("Y", col (s_Y s)); ("cost", PCost (s_cost s));
   ("normalization_type", PStr "stats"); ("de_duplication", PAny); ("model_parameters_iterations", PAny); ("context", PAny);
   ("num_acquisitions", PNat (s_num s))].
(** bayesian_optimization.py:79-172 (without those set again by BO.__init__) *)
Definition bayesian_attrs (u : setup) : obj :=
  [("modular_optimization", PBool false); ("initial_iter", PBool true); ("verbosity_model", PAny);
   ("kwargs", PAny); ("problem_config", PAny);
   ("constraints", match u_constraints u with Some n => PList n | None => PNone end); ("domain", PAny); ("maximize", PAny);
   ("objective_name", PStr (u_name u)); ("batch_size", PNat (u_batch u)); ("num_cores", PNat (u_cores u)); ("f", PAny);
   ("initial_design_type", PAny); ("initial_design_numdata", PNat (u_numdata u)); ("model_type", PStr (u_model u));
   ("exact_feval", PBool (u_exact u)); ("acquisition_optimizer_type", PStr (u_optimizer u));
   ("acquisition_optimizer", POptimizer (u_optimizer u)); ("acquisition_type", PStr (u_acquisition u)); ("evaluator_type", PStr (u_evaluator u))].
(** modular_bayesian_optimization.py:26-27 *)
Definition modular_attrs : obj := [("initial_iter", PBool true); ("modular_optimization", PBool true)].
(** bo.py:95-136, 206-212: the attributes run_optimization sets, when it gets as far as its loop; [eps] and the effective limits *)
Definition run_attrs (eps : Qc) (lims : option Qc * option Qc) (s : st M) : obj :=
  let l q := match q with Some q => PNum q | None => PInf end in
  [("verbosity", PAny); ("save_models_parameters", PAny); ("report_file", PAny); ("evaluations_file", PAny); ("models_file", PAny);
   ("eps", PNum eps); ("max_iter", l (fst lims)); ("max_time", l (snd lims)); ("time_zero", PAny); ("cum_time", PNum (s_cum s));
   ("suggested_sample", PMat (s_sugg s)); ("Y_new", PAny); ("Y_best", PAny); ("x_opt", PAny); ("fx_opt", PAny)].
(** The object: [ran] holds the arguments of the last run, if there was one. *)
Definition object (c : class) (u : setup) (sp : space) (s : st M) (ran : option (Qc * (option Qc * option Qc))) : obj :=
  app (match c with Bayesian => bayesian_attrs u | Modular => modular_attrs end)
      (app (bo_attrs u sp s) (match ran with Some (eps, lims) => run_attrs eps lims s | None => [] end)).
End Objects.

(** What is printed in a line. *)
Inductive field := FVersion | FDate | FStr (s : string) | FNat (n : nat) | FInt (z : Z) | FQ (q : Qc) | FInf | FBool (b : bool) | FRow (v : vec) | FOther.
Definition line := (string * list field)%type.
(** str(v) *)
Definition str (v : pyval) : field :=
  match v with
  | PNone => FStr "None" | PStr s => FStr s | PNat n => FNat n | PInt z => FInt z | PNum q => FQ q | PInf => FInf | PBool b => FBool b
  | _ => FOther
  end.
(** v == w on the numbers that are compared *)
Definition same_number (v w : pyval) : bool := match v, w with PNat n, PNum q => qceq (nat2q n) q | _, _ => false end.
(** X.shape[0]; len(space.get_continuous_dims()); ... of the value of an attribute *)
Definition rows (v : pyval) : res nat := match v with PMat m => Ok (length m) | _ => Raise AttributeError end.
Definition the_space_of (v : pyval) : res space := match v with PSpace sp => Ok sp | _ => Raise AttributeError end.
(** A string concatenated with the value: only strings can be *)
Definition concatenated (v : pyval) : res field := match v with PStr s => Ok (FStr s) | _ => Raise TypeError end.
(** cost.py:22-38 the attribute cost_type *)
Definition cost_type (c : costmodel) : string :=
  match c with CostConstant => "Constant cost" | CostTime _ _ => "evaluation_time" | CostUser _ | CostObject _ => "User defined cost" end.
(** v == True: False for None, a list, a string *)
Definition equals_true (v : pyval) : bool := match v with PBool b => b | PNat n => Nat.eqb n 1 | _ => false end.

(** Lines are written one after the other; an exception ends the writing, what was written stays in the file. *)
Fixpoint write (ls : list (res line)) : list line * option exn :=
  match ls with
  | [] => ([], None)
  | Ok l :: t => let (w, e) := write t in (l :: w, e)
  | Raise e :: _ => ([], Some e)
  end.
Definition simple (o : obj) (label name : string) : res line := v <- attr o name ;; Ok (label, [str v]).
(** bo.py:312-369 save_report.  The file is opened, and emptied, before anything else; blank lines and rulers are omitted. *)
Definition save_report (o : obj) : list line * option exn :=
  write
   [Ok ("GPyOpt Version", [FVersion]);
    Ok ("Date and time:", [FDate]);
    (n <- attr o "num_acquisitions" ;; m <- attr o "max_iter" ;; X <- attr o "X" ;; r <- rows X ;;
     Ok ("Optimization completed:", [FStr (if same_number n m then "YES" else "NO"); FNat r]));
    simple o "Number initial samples:" "initial_design_numdata";
    simple o "Tolerance:" "eps";
    simple o "Optimization time:" "cum_time";
    (v <- attr o "objective_name" ;; t <- concatenated v ;; Ok ("Problem name:", [t]));
    (v <- attr o "space" ;; sp <- the_space_of v ;; Ok ("Problem dimension:", [FNat (sp_dim sp)]));
    (v <- attr o "space" ;; sp <- the_space_of v ;; d <- get_continuous_dims sp ;; Ok ("Number continuous variables", [FNat (length d)]));
    (v <- attr o "space" ;; sp <- the_space_of v ;; d <- get_discrete_dims sp ;; Ok ("Number discrete variables", [FNat (length d)]));
    (v <- attr o "space" ;; sp <- the_space_of v ;; Ok ("Number bandits", [FNat (length (get_bandit sp))]));
    simple o "Noiseless evaluations:" "exact_feval";
    (v <- attr o "cost" ;; match v with PCost c => Ok ("Cost used:", [FStr (cost_type c)]) | _ => Raise AttributeError end);
    (v <- attr o "constraints" ;; Ok ("Constraints:", [FBool (equals_true v)]));
    simple o "Normalized outputs:" "normalize_Y";
    simple o "Model type:" "model_type";
    simple o "Model update interval:" "model_update_interval";
    simple o "Acquisition type:" "acquisition_type";
    (v <- attr o "acquisition_optimizer" ;; match v with POptimizer n => Ok ("Acquisition optimizer:", [FStr n]) | _ => Raise AttributeError end);
    simple o "Acquisition type:" "acquisition_type";
    Ok ("Acquisition optimizer:", [match attr o "acquisition_optimizer" with Ok (POptimizer n) => FStr n | _ => FStr "None" end]);
    (e <- attr o "evaluator_type" ;; b <- attr o "batch_size" ;; Ok ("Evaluator type (batch size):", [str e; str b]));
    simple o "Cores used:" "num_cores";
    (v <- attr o "Y" ;; match v with PCol Y => m <- py_min Y ;; Ok ("Value at minimum:", [FQ m]) | _ => Raise TypeError end);
    (x <- attr o "X" ;; y <- attr o "Y" ;;
     match x, y with
     | PMat X, PCol Y => match argmin Y with Some i => r <- get X i ;; Ok ("Best found minimum location:", [FRow r]) | None => Raise ValueError end
     | _, _ => Raise TypeError
     end)].

(** A table written with csv.writer: the header and the rows of numbers. *)
Definition table := (list string * mat)%type.
(** np.hstack of columns with the same number of rows *)
Definition numbered (rows : list vec) : mat := map (fun p => nat2q (S (fst p)) :: snd p) (combine (seq 0 (length rows)) rows).
(** bo.py:376-387 save_evaluations; the number of columns of X is that of its first row (an X without rows is not described) *)
Definition save_evaluations (X : mat) (Y : option vec) : res table :=
  match Y with
  | None => Raise AttributeError
  | Some Y =>
      if Nat.eqb (length Y) (length X) then
        let d := match X with x :: _ => length x | [] => 0 end in
        Ok (app ["Iteration"; "Y"] (map (fun k => "var_" ++ str_nat k) (seq 1 d)), numbered (map (fun p => fst p :: snd p) (combine Y X)))
      else Raise ValueError
  end.
(** bo.py:389-403 save_models; [names] is model.get_model_parameters_names() *)
Definition save_models (params : option mat) (names : list string) : res table :=
  match params with
  | None => Raise ValueError
  | Some H => Ok ("Iteration" :: names, numbered H)
  end.

(** bo.py:169-175: the files written at the end of run_optimization, in this order.  [want] tells which file names were given.
    The result is what was written to each file and the exception. *)
Record files := mk_files { f_report : option (list line); f_evaluations : option table; f_models : option table }.
Definition write_files (o : obj) (X : mat) (Y : option vec) (params : option mat) (names : list string) (report evaluations models : bool)
  : files * option exn :=
  let step_models f := if models then match save_models params names with Ok t => (mk_files (f_report f) (f_evaluations f) (Some t), None) | Raise e => (f, Some e) end
                       else (f, None) in
  let step_evaluations f := if evaluations then match save_evaluations X Y with Ok t => step_models (mk_files (f_report f) (Some t) None) | Raise e => (f, Some e) end
                            else step_models f in
  if report then match save_report o with
                 | (w, None) => step_evaluations (mk_files (Some w) None None)
                 | (w, Some e) => (mk_files (Some w) None None, Some e)
                 end
  else step_evaluations (mk_files None None None).
(** bo.py:78-175 run_optimization with the names of the files *)
Definition run_and_save {M} (fuel : nat) (E : env M) (c : class) (u : setup) (names : M -> list string) (s : st M) (max_iter max_time : lim) (eps : Qc)
  (ctx : option (list (string * Qc))) (report evaluations models : bool) : st M * files * run unit :=
  match run_optimization fuel E s max_iter max_time eps ctx with
  | (s', Some (Ok _)) =>
      let o := object c u (e_space E) s' (Some (eps, stop_conditions max_iter max_time)) in
      match write_files o (s_X s') (s_Y s') (s_params s') (names (s_model s')) report evaluations models with
      | (f, None) => (s', f, Some (Ok tt))
      | (f, Some e) => (s', f, Some (Raise e))
      end
  | (s', r) => (s', mk_files None None None, r)
  end.
