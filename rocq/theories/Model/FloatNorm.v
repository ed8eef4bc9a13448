(** normalize(Y, 'stats') in double precision with the mean and the deviation numpy computes: GPyOpt/util/general.py:219-226.
    Model/Float.v has the same function with any mean and deviation.  Definitions only. *)
From Coq Require Import List ZArith Bool.
From Verif.Model Require Import Py Float FloatStop.
Import ListNotations.

(** general.py:220 Y.mean(): np.sum divided by the number of entries; [total] is np.sum *)
Definition mean_f (total : list float -> float) (Y : list float) : float := fdiv (total Y) (of_Z (Z.of_nat (length Y))).
(** general.py:221 Y.std(): the square root of the mean of the squared differences from the mean *)
Definition std_f (total : list float -> float) (Y : list float) : float :=
  fsqrt (mean_f total (map (fun y => let d := fsub y (mean_f total Y) in fmul d d) Y)).
(** general.py:219-223, 234 *)
Definition normalize_f (total : list float -> float) (Y : list float) : list float := normalize_stats (mean_f total Y) (std_f total Y) Y.
