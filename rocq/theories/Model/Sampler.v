(** The representer points of entropy search: GPyOpt/util/mcmc_sampler.py:30-61 and GPyOpt/acquisitions/ES.py:52-72, 86-102.
    Definitions only. *)
From Coq Require Import String List Reals Qreals QArith Qcanon Bool Arith.
From Coquelicot Require Import Rbar.
From Verif.Model Require Import Py Space Design Optim ES.
Import ListNotations.
Local Open Scope nat_scope.

Definition q2r (x : Qc) : R := Q2R (this x).
(** emcee.EnsembleSampler(walkers, dimension, log density).run_mcmc(start, steps): the final positions with their log densities, or an
    exception.  The library is outside this model. *)
Definition ensemble := nat -> nat -> (list R -> Rbar) -> list (list R) -> nat -> res (list (list R * Rbar)).

(** mcmc_sampler.py:41-61 AffineInvariantEnsembleSampler.get_samples.  The reshaping (lines 57-59) does not change a position or a log
    density. *)
Definition get_samples (ens : ensemble) (fuel : nat) (sp : space) (dr : nat -> draws) (U : mat) (n : nat) (logp : list R -> Rbar) (burn_in : nat)
  : run (list (list R * Rbar)) :=
  restarts <~ initial_design fuel "random" sp dr U n ;;
  Some (d <- input_dim sp ;; ens n d logp (map (map q2r) restarts) burn_in).

Definition plus_inf (l : Rbar) : bool := match l with p_infty => true | _ => false end.
Definition minus_inf (l : Rbar) : bool := match l with m_infty => true | _ => false end.
(** ES.py:97-102 removal of the points with log value -inf; [n] is num_repr_points and [ord] the order in which Python goes through the
    set of the other positions. *)
Definition keep_points {A} (ord : list nat -> list nat) (n : nat) (pts : list (A * Rbar)) : res (list (A * Rbar)) :=
  let gone := filter (fun i => match nth_error pts i with Some p => minus_inf (snd p) | None => false end) (seq 0 (length pts)) in
  match gone with
  | [] => Ok pts
  | _ => mapM (get pts) (ord (filter (fun i => negb (existsb (Nat.eqb i) gone)) (seq 0 n)))
  end.

(** ES.py:52-72 the default proposal function with the bounds of the space, 86-102 the representer points.  [ei] is the expected
    improvement at a point, a real number: NaN is outside this model. *)
Definition representer_points (ens : ensemble) (ord : list nat -> list nat) (fuel : nat) (sp : space) (dr : nat -> draws) (U : mat) (n burn_in : nat)
  (ei : list R -> R) : run (list (list R * Rbar)) :=
  bs <~ Some (get_bounds sp) ;;
  let proposal x := prop_func (map (fun b => (q2r (fst b), q2r (snd b))) bs) (ei x) x in
  pts <~ get_samples ens fuel sp dr U n proposal burn_in ;;
  Some (if existsb (fun p => plus_inf (snd p)) pts then Raise RuntimeError else keep_points ord n pts).
