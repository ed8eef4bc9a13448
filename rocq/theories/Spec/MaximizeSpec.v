(** The same constructor call with another value of maximize. *)
From Verif.Model Require Import Py Space Objective BO.
Definition with_maximize (a : bo_args) (b : bool) : bo_args :=
  mk_args (a_f a) (a_space a) (a_X a) (a_Y a) (a_design a) (a_numdata a) b (a_batch_size a) (a_num_cores a) (a_cost a).
