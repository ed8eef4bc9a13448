(** Model of GPyOpt/core/task/variables.py and GPyOpt/core/task/space.py.  Definitions only. *)
From Coq Require Import String List ZArith QArith Qcanon Bool.
From Coq Require DecimalString.
From Verif.Model Require Import Py.
Import ListNotations.
Local Open Scope nat_scope.

(** The Python value stored under 'domain': a flat sequence of numbers, or a sequence of rows
    (for bandits; [isarr] says whether it is a 2-d numpy array or a plain list of tuples).
    space.py:13-55 (class documentation). *)
Inductive rawdom :=
| RNums (l : vec)
| RRows (isarr : bool) (rows : mat).

(** One dictionary of the domain description.  [None] = key absent.
    Dimensionalities are natural numbers (simplification: a negative one behaves as 0).
    space.py:177-181, variables.py:234-241. *)
Record descr := mk_descr {
  d_name : option string;
  d_type : option string;
  d_domain : option rawdom;
  d_dim : option nat }.

(** The four variable classes with their domain attribute.
    variables.py:84 (ContinuousVariable), 162 (DiscreteVariable), 119 (BanditVariable), 189 (CategoricalVariable).
    Simplification: a continuous domain is a pair, discrete and categorical domains are sequences of numbers. *)
Inductive kind :=
| KCont (lo hi : Qc)
| KDisc (vals : vec)
| KBandit (isarr : bool) (arms : mat)
| KCat (cats : vec).

(** variables.py:94-95, 133-134, 172-173, 216-217 is_bandit *)
Definition is_bandit (k : kind) : bool := match k with KBandit _ _ => true | _ => false end.
(** variables.py:13-14, 91-92 is_continuous *)
Definition is_continuous (k : kind) : bool := match k with KCont _ _ => true | _ => false end.
Definition is_discrete (k : kind) : bool := match k with KDisc _ => true | _ => false end.

(** An element of Design_space.space. variables.py:7-11 *)
Record variable := mk_var { v_name : string; v_kind : kind; v_dim : nat }.

(** An element of Design_space.space_expanded: dimensionality 1, with dimensionality_in_model and
    index_in_objective / index_in_model.  variables.py:26-36, 64-74 *)
Record xvar := mk_xvar {
  x_name : string; x_kind : kind; x_mdim : nat;
  x_idx_obj : list nat; x_idx_mod : list nat }.

(** variables.py:230-243 create_variable with BanditVariable.__init__ 120-128.
    [n], [ty], [dom] are the name, type and domain after defaults were filled in.
    Shapes of domains that the Python code would accept but that this model does not describe
    (e.g. a continuous domain with three numbers) give OutOfModel. *)
Definition create_variable (n ty : string) (dom : rawdom) (dim : option nat) : res variable :=
  let d1 := match dim with Some d => d | None => 1 end in
  if String.eqb ty "continuous" then
    match dom with
    | RNums [lo; hi] => Ok (mk_var n (KCont lo hi) d1)
    | _ => Raise OutOfModel
    end
  else if String.eqb ty "bandit" then
    match dom with
    | RNums [] => Raise IndexError                     (* dims[0] of an empty array *)
    | RNums (_ :: _) => Raise TypeError                (* len() of a number *)
    | RRows _ [] => Raise IndexError
    | RRows isarr (a :: arms) =>
        if forallb (fun r => Nat.eqb (length r) (length a)) arms
        then Ok (mk_var n (KBandit isarr (a :: arms)) (match dim with Some d => d | None => length a end))
        else Raise InvalidConfigError
    end
  else if String.eqb ty "discrete" then
    match dom with
    | RNums l => Ok (mk_var n (KDisc l) d1)
    | _ => Raise OutOfModel
    end
  else if String.eqb ty "categorical" then
    match dom with
    | RNums l => Ok (mk_var n (KCat l) d1)
    | _ => Raise OutOfModel
    end
  else Raise InvalidConfigError.

(** str(n) for a natural number *)
Definition str_nat (n : nat) : string := DecimalString.NilZero.string_of_uint (Nat.to_uint n).

(** space.py:177-186 the loop of _translate_space, starting at position [i] *)
Fixpoint translate_from (i : nat) (ds : list descr) : res (list variable) :=
  match ds with
  | [] => Ok []
  | d :: t =>
      let n := match d_name d with Some n => n | None => ("var_" ++ str_nat i)%string end in
      let ty := match d_type d with Some ty => ty | None => "continuous"%string end in
      match d_domain d with
      | None => Raise InvalidConfigError
      | Some dom => v <- create_variable n ty dom (d_dim d) ;; vs <- translate_from (S i) t ;; Ok (v :: vs)
      end
  end.

(** space.py:169-190 _translate_space *)
Definition translate_space (ds : list descr) : res (list variable) :=
  vs <- translate_from 0 ds ;;
  if existsb (fun v => is_bandit (v_kind v)) vs && existsb (fun v => negb (is_bandit (v_kind v))) vs
  then Raise InvalidConfigError
  else Ok vs.

(** space.py:118-130 one iteration of _expand_config_space: a descriptor with a 'dimensionality' key always
    gets the suffixes _1.._d; without 'name' the suffixing raises KeyError. *)
Definition expand_config1 (d : descr) : res (list descr) :=
  match d_dim d with
  | None => Ok [d]
  | Some n =>
      mapM (fun k => match d_name d with
                     | Some nm => Ok (mk_descr (Some (nm ++ "_" ++ str_nat (S k))%string) (d_type d) (d_domain d) (Some 1))
                     | None => Raise KeyError
                     end) (seq 0 n)
  end.
(** space.py:100-130 _expand_config_space *)
Definition expand_config_space (ds : list descr) : res (list descr) :=
  ls <- mapM expand_config1 ds ;; Ok (concat ls).

(** variables.py:16-36 Variable.expand, 139-143 BanditVariable.expand, 193-197 CategoricalVariable.expand
    (called for every variable by space.py:192-204 _expand_space).
    Indices are filled in later, here they are []. *)
Definition expand_var (v : variable) : res (list xvar) :=
  match v_kind v with
  | KBandit isarr arms =>
      if isarr then
        Ok [mk_xvar (v_name v) (v_kind v) (match arms with a :: _ => length a | [] => 0 end) [] []]
      else Raise AttributeError                        (* list has no attribute shape *)
  | k =>
      Ok (map (fun i => mk_xvar
                 (if Nat.ltb 1 (v_dim v) then (v_name v ++ "_" ++ str_nat (S i))%string else v_name v)
                 k
                 (match k with KCat cats => length cats | _ => 1 end) [] [])
              (seq 0 (v_dim v)))
  end.

(** space.py:132-152 _compute_variables_indices: objective and model counters.
    Note that a bandit variable gets ONE model index whatever its width. *)
Fixpoint set_indices (vs : list xvar) (co cm : nat) : list xvar :=
  match vs with
  | [] => []
  | v :: t =>
      match x_kind v with
      | KCat cats =>
          mk_xvar (x_name v) (x_kind v) (x_mdim v) [co] (seq cm (length cats))
            :: set_indices t (S co) (cm + length cats)
      | _ =>
          mk_xvar (x_name v) (x_kind v) (x_mdim v) [co] [cm] :: set_indices t (S co) (S cm)
      end
  end.

(** A constraint dictionary: the functions given under the (old) key 'constrain' and the key 'constraint'.
    A constraint is feasible where it is <= 0.  Simplification: the string is represented by the function it
    denotes, applied to each row separately; it may raise (e.g. IndexError for a missing column).
    Model/Constraints.v has the expressions (C111). *)
Record constr := mk_constr { c_constrain : option (vec -> res Qc); c_constraint : option (vec -> res Qc) }.

(** space.py:81-86 the 'constrain' spelling overrides 'constraint' *)
Definition fix_constr (c : constr) : constr :=
  match c_constrain c with
  | Some f => mk_constr (Some f) (Some f)
  | None => c
  end.

(** The attributes of a Design_space object. *)
Record space := mk_space {
  sp_config : list descr;
  sp_config_expanded : list descr;
  sp_vars : list variable;
  sp_xvars : list xvar;
  sp_dim : nat;                          (* dimensionality *)
  sp_constraints : option (list constr) }.

(** space.py:64-87 Design_space.__init__ *)
Definition design_space (ds : list descr) (cs : option (list constr)) : res space :=
  vs <- translate_space ds ;;
  cfg <- expand_config_space ds ;;
  xs <- mapM expand_var vs ;;
  Ok (mk_space ds cfg vs (set_indices (concat xs) 0 0)
        (list_sum (map v_dim vs))
        (match cs with None => None | Some l => Some (map fix_constr l) end)).

(** space.py:77 objective_dimensionality *)
Definition objective_dimensionality (sp : space) : nat := length (sp_xvars sp).
(** space.py:78-79 model_dimensionality *)
Definition model_dimensionality (sp : space) : nat := list_sum (map x_mdim (sp_xvars sp)).

(** space.py:279-280 _has_bandit *)
Definition has_bandit (sp : space) : bool := existsb (fun v => is_bandit (v_kind v)) (sp_vars sp).
(** space.py:273-277 has_continuous *)
Definition has_continuous (sp : space) : bool := existsb (fun v => is_continuous (v_kind v)) (sp_vars sp).
(** space.py:252-259 has_constraints *)
Definition has_constraints (sp : space) : bool := match sp_constraints sp with Some _ => true | None => false end.

(** space.py:155-167 name_to_variable dictionary and find_variable: the last variable of a name wins *)
Definition find_variable (sp : space) (n : string) : res xvar :=
  match find (fun v => String.eqb (x_name v) n) (rev (sp_xvars sp)) with
  | Some v => Ok v
  | None => Raise InvalidVariableNameError
  end.

(** variables.py:38-43, 199-202 objective_to_model of a non-bandit variable.
    entry[int(x)] = 1 uses Python indexing, so negative values count from the end. *)
Definition var_objective_to_model (v : xvar) (x : Qc) : res vec :=
  match x_kind v with
  | KCat _ =>
      match py_index (x_mdim v) (py_int x) with
      | Some i => Ok (set_nth (repeat q0 (x_mdim v)) i q1)
      | None => Raise IndexError
      end
  | _ => Ok [x]
  end.

(** variables.py:45-50, 204-208 model_to_objective of a non-bandit variable *)
Definition var_model_to_objective (v : xvar) (x : vec) (i : nat) : res vec :=
  match x_kind v with
  | KCat _ =>
      let e := slice x i (x_mdim v) in
      Ok [qsum (map (fun '(a, b) => (nat2q a * b)%Qc) (combine (seq 0 (x_mdim v)) e))]
  | _ => a <- get x i ;; Ok [a]
  end.

(** space.py:206-217 objective_to_model, from variable position [k] on *)
Fixpoint objective_to_model_from (vs : list xvar) (k : nat) (x : vec) : res vec :=
  match vs with
  | [] => Ok []
  | v :: t =>
      xk <- get x k ;; e <- var_objective_to_model v xk ;; r <- objective_to_model_from t (S k) x ;; Ok (e ++ r)
  end.
Definition objective_to_model (sp : space) (x : vec) : res vec := objective_to_model_from (sp_xvars sp) 0 x.

(** space.py:237-250 model_to_objective, from model column [i] on *)
Fixpoint model_to_objective_from (vs : list xvar) (i : nat) (x : vec) : res vec :=
  match vs with
  | [] => Ok []
  | v :: t =>
      e <- var_model_to_objective v x i ;; r <- model_to_objective_from t (i + x_mdim v) x ;; Ok (e ++ r)
  end.
Definition model_to_objective (sp : space) (x : vec) : res vec := model_to_objective_from (sp_xvars sp) 0 x.

(** np.atleast_2d applied to a list of rows: an empty list becomes one empty row *)
Definition atleast_2d (Z : mat) : mat := match Z with [] => [[]] | _ => Z end.

(** space.py:219-226 unzip_inputs *)
Definition unzip_inputs (sp : space) (X : mat) : res mat :=
  if has_bandit sp then Ok (atleast_2d X)
  else Z <- mapM (objective_to_model sp) X ;; Ok (atleast_2d Z).

(** space.py:228-235 zip_inputs *)
Definition zip_inputs (sp : space) (X : mat) : res mat :=
  if has_bandit sp then Ok (atleast_2d X)
  else Z <- mapM (model_to_objective sp) X ;; Ok (atleast_2d Z).

(** variables.py:88-89, 145-146, 166-167, 210-211 get_bounds of an expanded variable.
    (The lambda in the bandit case is min / max over column d.) *)
Definition var_bounds (v : xvar) : res (list (Qc * Qc)) :=
  match x_kind v with
  | KCont lo hi => Ok [(lo, hi)]
  | KDisc vals => a <- py_min vals ;; b <- py_max vals ;; Ok [(a, b)]
  | KCat _ => Ok (repeat (q0, q1) (x_mdim v))
  | KBandit _ arms =>
      mapM (fun d => a <- mapM (fun r => get r d) arms ;;
                     lo <- py_min a ;; hi <- py_max a ;; Ok (lo, hi))
           (seq 0 (x_mdim v))
  end.
(** space.py:262-271 get_bounds *)
Definition get_bounds (sp : space) : res (list (Qc * Qc)) :=
  bs <- mapM var_bounds (sp_xvars sp) ;; Ok (concat bs).

(** space.py:296-311 indicator_constraints: product of the 0/1 indicators, constraint by constraint.
    A dictionary without 'constraint' raises KeyError. *)
Fixpoint indicator_loop (cs : list constr) (x : mat) (I : vec) : res vec :=
  match cs with
  | [] => Ok I
  | c :: t =>
      match c_constraint c with
      | None => Raise KeyError
      | Some f =>
          vals <- mapM f x ;;
          indicator_loop t x (map (fun '(i, v) => (i * (if qcle v q0 then q1 else q0))%Qc) (combine I vals))
      end
  end.
Definition indicator_constraints (sp : space) (x : mat) : res vec :=
  let x := atleast_2d x in
  match sp_constraints sp with
  | None => Ok (repeat q1 (length x))
  | Some cs => indicator_loop cs x (repeat q1 (length x))
  end.

(** variables.py:100-116 ContinuousVariable.round *)
Definition round_cont (lo hi v : Qc) : Qc :=
  if qclt v lo then lo else if qclt hi v then hi else v.

(** variables.py:175-187 DiscreteVariable.round: first among the closest values *)
Definition round_disc (vals : vec) (v : Qc) (first : Qc) : Qc :=
  fold_left (fun r d => if qclt (qabs (d - v)%Qc) (qabs (r - v)%Qc) then d else r) vals first.

(** numpy broadcasting of a row against a vector, elementwise [f] *)
Definition bcast (f : Qc -> Qc -> Qc) (a b : vec) : res vec :=
  if Nat.eqb (length a) (length b) then Ok (map (fun '(x, y) => f x y) (combine a b))
  else match b, a with
       | [y], _ => Ok (map (fun x => f x y) a)
       | _, [x] => Ok (map (fun y => f x y) b)
       | _, _ => Raise ValueError
       end.

(** variables.py:151-159 BanditVariable.round.  Simplification: distances are compared by their squares
    (np.linalg.norm is the square root of this sum). *)
Definition round_bandit (arms : mat) (v : vec) : res vec :=
  ds <- mapM (fun a => d <- bcast Qcminus a v ;; Ok (qsum (map (fun x => (x * x)%Qc) d))) arms ;;
  match argmin ds with
  | Some i => get arms i
  | None => Raise ValueError
  end.

(** What variable.round returns: a 1-d sequence, or (bandit) a list holding one row. *)
Inductive rounded := R1 (v : vec) | R2 (row : vec).

(** variables.py:100-116, 151-159, 175-187, 219-227 round *)
Definition var_round (v : xvar) (a : vec) : res rounded :=
  match x_kind v with
  | KCont lo hi => x <- get a 0 ;; Ok (R1 [round_cont lo hi x])
  | KDisc vals => x <- get a 0 ;; d <- get vals 0 ;; Ok (R1 [round_disc vals x d])
  | KCat _ =>
      match argmax a with
      | Some i => Ok (R1 (set_nth (repeat q0 (length a)) i q1))
      | None => Raise ValueError
      end
  | KBandit _ arms => r <- round_bandit arms a ;; Ok (R2 r)
  end.

Fixpoint all_R1 (l : list rounded) : option (list vec) :=
  match l with
  | [] => Some []
  | R1 v :: t => match all_R1 t with Some vs => Some (v :: vs) | None => None end
  | R2 _ :: _ => None
  end.
Fixpoint all_R2 (l : list rounded) : option (list vec) :=
  match l with
  | [] => Some []
  | R2 v :: t => match all_R2 t with Some vs => Some (v :: vs) | None => None end
  | R1 _ :: _ => None
  end.

(** np.atleast_2d(np.concatenate(x_rounded)): 1-d pieces are joined into one row; rows (bandits) are stacked,
    which needs equal widths; an empty list raises ValueError.  space.py:342 *)
Definition concat_rounded (l : list rounded) : res mat :=
  match l with
  | [] => Raise ValueError
  | _ =>
      match all_R1 l, all_R2 l with
      | Some vs, _ => Ok [concat vs]
      | None, Some (r :: rows) =>
          if forallb (fun r' => Nat.eqb (length r') (length r)) rows then Ok (r :: rows) else Raise ValueError
      | _, _ => Raise ValueError
      end
  end.

(** space.py:333-340 the loop of round_optimum, from model column [i] on *)
Fixpoint round_from (vs : list xvar) (i : nat) (x : vec) : res (list rounded) :=
  match vs with
  | [] => Ok []
  | v :: t =>
      r <- var_round v (slice x i (x_mdim v)) ;; rs <- round_from t (i + x_mdim v) x ;; Ok (r :: rs)
  end.

(** space.py:321-342 round_optimum.  The argument is a matrix; a 1-d vector x is passed as [[x]]. *)
Definition round_optimum (sp : space) (x : mat) : res mat :=
  match x with
  | [v] => rs <- round_from (sp_xvars sp) 0 v ;; concat_rounded rs
  | _ => Raise ValueError
  end.

(** space.py:352-360 get_continuous_bounds *)
Definition get_continuous_bounds (sp : space) : list (Qc * Qc) :=
  concat (map (fun v => match v_kind v with KCont lo hi => repeat (lo, hi) (v_dim v) | _ => [] end) (sp_vars sp)).

(** space.py:363-371, 398-406: positions i < dimensionality whose expanded variable satisfies [p];
    space_expanded[i] may be out of range (bandits). *)
Definition dims_of (p : kind -> bool) (sp : space) : res (list nat) :=
  ls <- mapM (fun i => v <- get (sp_xvars sp) i ;; Ok (if p (x_kind v) then [i] else [])) (seq 0 (sp_dim sp)) ;;
  Ok (concat ls).
Definition get_continuous_dims (sp : space) : res (list nat) := dims_of is_continuous sp.
Definition get_discrete_dims (sp : space) : res (list nat) := dims_of is_discrete sp.
(** space.py:313-319 input_dim *)
Definition input_dim (sp : space) : res nat :=
  c <- get_continuous_dims sp ;; d <- get_discrete_dims sp ;; Ok (length c + length d).

(** space.py:421-429 get_bandit *)
Definition get_bandit (sp : space) : mat :=
  concat (map (fun v => match v_kind v with KBandit _ arms => arms | _ => [] end) (sp_vars sp)).

(** space.py:386-395 get_discrete_grid: product of the discrete domains *)
Fixpoint product (ls : list vec) : list vec :=
  match ls with
  | [] => [[]]
  | l :: t => flat_map (fun x => map (cons x) (product t)) l
  end.
Definition get_discrete_grid (sp : space) : mat :=
  product (concat (map (fun v => match v_kind v with KDisc vals => repeat vals (v_dim v) | _ => [] end) (sp_vars sp))).

(** space.py:282-293 get_subspace: the variables whose first model column is listed *)
Fixpoint get_subspace_from (vs : list xvar) (k : nat) (dims : list nat) : list xvar :=
  match vs with
  | [] => []
  | v :: t =>
      let r := get_subspace_from t (k + x_mdim v) dims in
      if existsb (Nat.eqb k) dims then v :: r else r
  end.
Definition get_subspace (sp : space) (dims : list nat) : list xvar := get_subspace_from (sp_xvars sp) 0 dims.

(** space.py:438-447 bounds_to_space *)
Definition bounds_to_space (bounds : list (Qc * Qc)) : list descr :=
  map (fun '(k, (a, b)) => mk_descr (Some ("var_" ++ str_nat (S k))%string) (Some "continuous"%string)
                              (Some (RNums [a; b])) (Some 1))
      (combine (seq 0 (length bounds)) bounds).
