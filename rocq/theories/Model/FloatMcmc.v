(** The acquisitions integrated over hyper-parameter samples in double precision, for one location: _compute_acq of GPyOpt/acquisitions/EI_mcmc.py:29-39,
    MPI_mcmc.py:29-39 and LCB_mcmc.py:26-34.  Model/AcqR.v has the same code on real numbers.  Definitions only. *)
From Coq Require Import List ZArith.
From Verif.Model Require Import Py Float FloatAcq.
Import ListNotations.

(** what one sample predicts at the location, and its get_fmin(): the zip of EI_mcmc.py:36 and MPI_mcmc.py:36 (LCB_mcmc.py:32 without the minimum) *)
Record sample_f := mk_sample { s_mean : float; s_dev : float; s_fmin : float }.
(** f_acqu = 0; f_acqu += v for each sample; f_acqu/len(means): EI_mcmc.py:35-39, MPI_mcmc.py:35-39, LCB_mcmc.py:31-34 *)
Definition samples_mean (vs : list float) : float := fdiv (fold_left fadd vs f0) (of_Z (Z.of_nat (length vs))).
(** EI_mcmc.py:37-38: (fmin - m + self.jitter) * Phi + s * phi, with s as get_quantiles left it *)
Definition ei_sample_f (L : libm) (par : float) (q : sample_f) : float :=
  let s := clipped (s_dev q) in let u := quantile_u par (s_fmin q) (s_mean q) s in
  fadd (fmul (fadd (fsub (s_fmin q) (s_mean q)) par) (quantile_Phi L u)) (fmul s (quantile_phi L u)).
Definition ei_mcmc_f (L : libm) (par : float) (qs : list sample_f) : float := samples_mean (map (ei_sample_f L par) qs).
(** MPI_mcmc.py:37-38 *)
Definition mpi_mcmc_f (L : libm) (par : float) (qs : list sample_f) : float :=
  samples_mean (map (fun q => mpi_f L par (s_fmin q) (s_mean q) (s_dev q)) qs).
(** LCB_mcmc.py:33: -m + self.exploration_weight * s *)
Definition lcb_mcmc_f (weight : float) (qs : list sample_f) : float := samples_mean (map (fun q => lcb_f weight (s_mean q) (s_dev q)) qs).
