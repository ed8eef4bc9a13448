(** Local penalization in double precision: GPyOpt/acquisitions/LP.py:48-89 and the Lipschitz constant of
    GPyOpt/core/evaluators/batch_local_penalization.py:68-72, for one location.  Model/AcqR.v has the same code on real numbers.  Definitions only. *)
From Coq Require Import List ZArith Bool.
From Flocq Require Import IEEE754.BinarySingleNaN.
From Verif.Model Require Import Py Float FloatStop FloatCons AcqR.
Import ListNotations.

(** np.exp, np.log, np.log1p and scipy.stats.norm.logcdf on doubles (external) *)
Record lp_lib := mk_lp { exp_lp : float -> float; log_lp : float -> float; log1p_lp : float -> float; logcdf_lp : float -> float }.
Definition e50_f : float := lit 8424983333484575 (-219).                (* 1e-50 *)
Definition e16_f : float := lit 8112963841460668 (-106).                (* 1e-16 *)
Definition e7_f : float := lit 7555786372591432 (-76).                  (* 1e-7 *)
Definition forty : float := of_Z 40.

(** LP.py:78-84; a NaN is in neither of the two masks and stays *)
Definition lp_map_f (B : lp_lib) (t : transform) (f : float) : float :=
  match t with
  | TSoftplus => if fle forty f then log_lp B f else if flt f forty then log_lp B (log1p_lp B (exp_lp B f)) else f
  | TNone => log_lp B (fadd f e50_f)
  | TOther => f
  end.
(** batch_local_penalization.py:69-71; [fun_] is float(res.fun) *)
Definition estimate_L_f (fun_ : float) : float := let L := fneg fun_ in if flt L e7_f then of_Z 10 else L.
(** LP.py:54-61 radius and width of the penaliser of a batch point with the prediction ([m], [pred]) *)
Definition precompute_f (m pred L Min : float) : float * float :=
  (fdiv (fsub m Min) L, fdiv (fsqrt (if flt pred e16_f then e16_f else pred)) L).
(** LP.py:64-68 for one batch point; [total] is np.sum *)
Definition hammer_f (B : lp_lib) (total : list float -> float) (x : list float) (h : list float * (float * float)) : float :=
  logcdf_lp B (fdiv (fsub (distance total x (fst h)) (fst (snd h))) (snd (snd h))).
(** LP.py:70-89; [u] is the value of the wrapped acquisition at [x], [hs] the batch points with radius and width, None before the first one *)
Definition penalized_f (B : lp_lib) (total : list float -> float) (t : transform) (u : float) (hs : option (list (list float * (float * float)))) (x : list float) : float :=
  let v := fneg (lp_map_f B t (fneg u)) in
  match hs with None => v | Some hs => fadd v (fneg (total (map (hammer_f B total x) hs))) end.
