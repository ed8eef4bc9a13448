(** Acquisition values in double precision: GPyOpt/util/general.py:113-128 get_quantiles, _compute_acq of GPyOpt/acquisitions/EI.py:32-40, MPI.py:32-40
    and LCB.py:35-41, and the weighting of GPyOpt/acquisitions/base.py:33-52, for one location.  Model/AcqR.v has the same code on real numbers.
    Definitions only. *)
From Coq Require Import List ZArith Bool.
From Flocq Require Import IEEE754.BinarySingleNaN.
From Verif.Model Require Import Py Float FloatStop FloatCons.
Import ListNotations.

(** np.exp and scipy.special.erfc on doubles (external) *)
Record libm := mk_libm { exp_f : float -> float; erfc_f : float -> float }.
Definition half : float := lit 1 (-1).
Definition minus_half : float := lit (-1) (-1).
Definition pi_f : float := lit 884279719003555 (-48).                    (* np.pi *)
Definition sqrt_2pi : float := fsqrt (fmul (of_Z 2) pi_f).              (* np.sqrt(2*np.pi) *)
Definition sqrt_2 : float := fsqrt (of_Z 2).                            (* np.sqrt(2) *)

(** general.py:121-124: s[s<1e-10] = 1e-10 changes the caller's array *)
Definition clipped (s : float) : float := if flt s tenth10 then tenth10 else s.
(** general.py:125-128 *)
Definition quantile_u (par fmin m s : float) : float := fdiv (fsub (fsub fmin m) par) s.
Definition quantile_phi (L : libm) (u : float) : float := fdiv (exp_f L (fmul minus_half (fmul u u))) sqrt_2pi.
Definition quantile_Phi (L : libm) (u : float) : float := fmul half (erfc_f L (fdiv (fneg u) sqrt_2)).
(** EI.py:36-40 *)
Definition ei_f (L : libm) (par fmin m s : float) : float :=
  let s := clipped s in let u := quantile_u par fmin m s in
  fmul s (fadd (fmul u (quantile_Phi L u)) (quantile_phi L u)).
(** MPI.py:36-40 *)
Definition mpi_f (L : libm) (par fmin m s : float) : float := quantile_Phi L (quantile_u par fmin m (clipped s)).
(** LCB.py:39-41 *)
Definition lcb_f (weight m s : float) : float := fadd (fneg m) (fmul weight s).

(** base.py:40  -(f_acqu*indicator)/cost_x *)
Definition weighted_f (f indicator cost : float) : float := fdiv (fneg (fmul f indicator)) cost.
(** base.py:49-52, the value: -f_acq_cost*indicator with f_acq_cost = f_acqu/cost_x *)
Definition weighted_withGradients_f (f indicator cost : float) : float := fmul (fneg (fdiv f cost)) indicator.
(** the indicator of a row (Model/FloatCons.v, indicator_constraints_f) *)
Definition indicator_of (feasible : bool) : float := of_Z (if feasible then 1 else 0).
