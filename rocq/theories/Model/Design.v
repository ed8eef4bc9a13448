(** Initial designs: GPyOpt/experiment_design/*.py.
    Randomness: every call receives its draws as arguments (see [draws]); theorems quantify over them.
    np.empty: the uninitialised contents are an arbitrary argument [junk]. *)
From Coq Require Import String List ZArith QArith Qcanon Bool.
From Verif.Model Require Import Py Space.
Import ListNotations.
Local Open Scope nat_scope.

(** What the random generator returns during one call of fill_noncontinous_variables and
    samples_multidimensional_uniform:
    dr_idx v i   : position drawn for variable v in row i (np.random.choice / randint); reduced modulo the number of
                   options, so every function is a legal generator and every legal outcome is represented;
    dr_unif k i  : the standard uniform number behind coordinate k of row i (np.random.uniform = low + (high-low)*u);
    dr_junk i j  : what np.empty left in row i, column j. *)
Record draws := mk_draws { dr_idx : nat -> nat -> nat; dr_unif : nat -> nat -> Qc; dr_junk : nat -> nat -> Qc }.

(** np.random.choice(l, ..) at the drawn position *)
Definition choice {A} (d : A) (l : list A) (k : nat) : A := nth (Nat.modulo k (length l)) l d.

Fixpoint mapi_from {A B} (f : nat -> A -> B) (i : nat) (l : list A) : list B :=
  match l with [] => [] | a :: t => f i a :: mapi_from f (S i) t end.

(** np.empty((n, dim)) *)
Definition np_empty (junk : nat -> nat -> Qc) (n dim : nat) : mat :=
  map (fun i => map (junk i) (seq 0 dim)) (seq 0 n).

(** samples[:, idx:idx+w] = vals in one row *)
Definition set_slice (row : vec) (idx : nat) (vals : vec) : vec :=
  firstn idx row ++ vals ++ skipn (idx + length vals) row.

(** random_design.py:43-53 one iteration of fill_noncontinous_variables for variable number [idx].
    [dim] is the number of columns; an index beyond it is an IndexError. *)
Definition fill_var (dim : nat) (dr : draws) (idx : nat) (v : xvar) (M : mat) : res mat :=
  match x_kind v with
  | KCont _ _ => Ok M
  | KDisc vals | KCat vals =>
      match vals with
      | [] => Raise ValueError
      | d :: _ =>
          if Nat.ltb idx dim then Ok (mapi_from (fun i row => set_nth row idx (choice d vals (dr_idx dr idx i))) 0 M)
          else Raise IndexError
      end
  | KBandit _ arms =>
      match arms with
      | [] => Raise ValueError
      | a :: _ =>
          if Nat.leb (idx + length a) dim then
            Ok (mapi_from (fun i row => set_slice row idx (choice a arms (dr_idx dr idx i))) 0 M)
          else Raise IndexError
      end
  end.
(** random_design.py:37-53 fill_noncontinous_variables *)
Fixpoint fill_from (dim : nat) (dr : draws) (idx : nat) (vs : list xvar) (M : mat) : res mat :=
  match vs with
  | [] => Ok M
  | v :: t => M' <- fill_var dim dr idx v M ;; fill_from dim dr (S idx) t M'
  end.
Definition fill_noncontinuous (sp : space) (dr : draws) (M : mat) : res mat :=
  fill_from (sp_dim sp) dr 0 (sp_xvars sp) M.

(** samples[:, dims] = X: column dims[k] of each row receives entry k of the corresponding row of X *)
Fixpoint set_cols (row : vec) (dims : list nat) (vals : vec) : vec :=
  match dims, vals with
  | j :: dims', x :: vals' => set_cols (set_nth row j x) dims' vals'
  | _, _ => row
  end.
(** the assignment needs equal shapes (numpy's size-1 broadcasting cannot occur here: the caller builds X with one
    column per continuous bound and one row per sample) *)
Definition assign_cols (dims : list nat) (M X : mat) : res mat :=
  if Nat.eqb (length M) (length X) && forallb (fun r => Nat.eqb (length r) (length dims)) X
  then Ok (map (fun '(row, x) => set_cols row dims x) (combine M X))
  else Raise ValueError.

(** random_design.py:67-77 (and util/general.py:63-73) samples_multidimensional_uniform *)
Definition samples_multidimensional_uniform (u : nat -> nat -> Qc) (bounds : list (Qc * Qc)) (n : nat) : mat :=
  map (fun i => mapi_from (fun k '(lo, hi) => (lo + (hi - lo) * u k i)%Qc) 0 bounds) (seq 0 n).

(** random_design.py:56-65 get_samples_without_constraints *)
Definition get_samples_without_constraints (sp : space) (dr : draws) (n : nat) : res mat :=
  M <- fill_noncontinuous sp dr (np_empty (dr_junk dr) n (sp_dim sp)) ;;
  if has_continuous sp then
    dims <- get_continuous_dims sp ;;
    assign_cols dims M (samples_multidimensional_uniform (dr_unif dr) (get_continuous_bounds sp) n)
  else Ok M.

(** domain_samples[valid_indices,:] with valid_indices = (indicator == 1) *)
Definition keep_valid (D : mat) (I : vec) : mat :=
  map fst (filter (fun '(_, i) => qceq i q1) (combine D I)).

(** random_design.py:26-35 the rejection loop: [k] counts its iterations, iteration k uses the draws [dr k].
    None: the loop has not finished within [fuel] iterations. *)
Fixpoint rejection_loop (fuel : nat) (sp : space) (dr : nat -> draws) (n k : nat) (samples : mat) : option (res mat) :=
  match fuel with
  | O => None
  | S f =>
      if Nat.ltb (length samples) n then
        match (D <- get_samples_without_constraints sp (dr k) n ;;
               I <- indicator_constraints sp D ;; Ok (keep_valid D I)) with
        | Ok V => rejection_loop f sp dr n (S k) (samples ++ V)
        | Raise e => Some (Raise e)
        end
      else Some (Ok (firstn n samples))
  end.

(** random_design.py:15-35 RandomDesign.get_samples *)
Definition random_design (fuel : nat) (sp : space) (dr : nat -> draws) (n : nat) : option (res mat) :=
  if has_constraints sp then rejection_loop fuel sp dr n 0 []
  else Some (get_samples_without_constraints sp (dr 0) n).

(** grid_design.py:48-58 iroot.  One unit of fuel per loop iteration. OutOfModel marks exhausted fuel (never
    happens, see C12).  Simplification: for k = 0 Python computes pow(s,-1) as a float; every path raises
    ZeroDivisionError.  n is assumed non-negative. *)
Fixpoint iroot_loop (fuel : nat) (k n u s : Z) : res Z :=
  match fuel with
  | O => Raise OutOfModel
  | S f =>
      if (u <? s)%Z then
        let s := u in
        if (k =? 0)%Z then Raise ZeroDivisionError
        else if (Z.pow s (k - 1) =? 0)%Z then Raise ZeroDivisionError
        else
          let t := ((k - 1) * s + n / Z.pow s (k - 1))%Z in
          iroot_loop f k n (t / k)%Z s
      else Ok s
  end.
Definition iroot (k n : Z) : res Z := iroot_loop (Z.to_nat n + 2) k n n (n + 1)%Z.

(** np.linspace(lo, hi, r) *)
Definition linspace (lo hi : Qc) (r : nat) : vec :=
  match r with
  | O => []
  | S O => [lo]
  | S r' => map (fun j => (lo + nat2q j * ((hi - lo) / nat2q r'))%Qc) (seq 0 r)
  end.

Definition swap2 {A} (l : list A) : list A := match l with a :: b :: t => b :: a :: t | _ => l end.

(** grid_design.py:60-70 multigrid: np.meshgrid (default 'xy' indexing swaps the first two axes) flattened in
    Fortran order: the second coordinate varies fastest, then the first, then the third, ... *)
Definition multigrid (bounds : list (Qc * Qc)) (r : nat) : res mat :=
  match bounds with
  | [] => Raise ValueError
  | [(lo, hi)] => Ok (map (fun x => [x]) (linspace lo hi r))
  | _ =>
      let axes := map (fun '(lo, hi) => linspace lo hi r) bounds in
      Ok (map (fun t => swap2 (rev t)) (product (rev (swap2 axes))))
  end.

(** grid_design.py:19-24 _adjust_init_points_count: points per dimension and total *)
Definition adjust_init_points_count (sp : space) (n : nat) : res (nat * nat) :=
  dims <- get_continuous_dims sp ;;
  r <- iroot (Z.of_nat (length dims)) (Z.of_nat n) ;;
  Ok (Z.to_nat r, Nat.pow (Z.to_nat r) (length dims)).

(** grid_design.py:14-43 GridDesign *)
Definition grid_design (sp : space) (dr : draws) (n : nat) : res mat :=
  if has_constraints sp then Raise InvalidConfigError
  else
    rt <- adjust_init_points_count sp n ;;
    M <- fill_noncontinuous sp dr (np_empty (dr_junk dr) (snd rt) (sp_dim sp)) ;;
    if has_continuous sp then
      X <- multigrid (get_continuous_bounds sp) (fst rt) ;;
      dims <- get_continuous_dims sp ;;
      assign_cols dims M X
    else Ok M.

(** latin_design.py:13-46 LatinDesign and sobol_design.py:13-35 SobolDesign: the unit-cube design [U] (pyDOE.lhs,
    sobol_seq.i4_sobol_generate; n rows, one column per continuous dimension) is scaled to the bounds. *)
Definition scale_row (bounds : list (Qc * Qc)) (u : vec) : vec :=
  map (fun '((lo, hi), x) => (lo + x * (hi - lo))%Qc) (combine bounds u).
Definition unit_design (sp : space) (dr : draws) (U : mat) (n : nat) : res mat :=
  if has_constraints sp then Raise InvalidConfigError
  else
    M <- fill_noncontinuous sp dr (np_empty (dr_junk dr) n (sp_dim sp)) ;;
    if has_continuous sp then
      dims <- get_continuous_dims sp ;;
      assign_cols dims M (map (scale_row (get_continuous_bounds sp)) U)
    else Ok M.

(** experiment_design/__init__.py:7-20 initial_design; [U] is what the external unit-cube generator returns *)
Definition initial_design (fuel : nat) (name : string) (sp : space) (dr : nat -> draws) (U : mat) (n : nat)
  : option (res mat) :=
  if String.eqb name "random" then random_design fuel sp dr n
  else if String.eqb name "sobol" then Some (unit_design sp (dr 0) U n)
  else if String.eqb name "grid" then Some (grid_design sp (dr 0) n)
  else if String.eqb name "latin" then Some (unit_design sp (dr 0) U n)
  else Some (Raise ValueError).
