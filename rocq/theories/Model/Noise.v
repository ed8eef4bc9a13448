(** Objectives that draw random numbers: the generator seen by GPyOpt/core/task/objective.py:44-101 (evaluate, _eval_func, _syncronous_batch_evaluation).  Definitions only.

    numpy's global generator is part of the state of a process.  A child started with fork (objective.py:88-92) begins with a
    copy of the parent's generator, and what it draws does not change the parent's.  Simplification: the objective draws from
    that generator only. *)
From Coq Require Import List ZArith QArith Qcanon Bool.
From Verif.Model Require Import Py Space Design Optim Objective.
Import ListNotations.
Local Open Scope nat_scope.

Section Noise.
Context {G : Type}.                                        (* states of the generator *)
(** An objective on one row: its value (or exception) and the generator afterwards. *)
Definition noisy := vec -> G -> res Qc * G.
(** The generator after calls on the rows [h]. *)
Definition state_after (f : noisy) (g : G) (h : list vec) : G := fold_left (fun g x => snd (f x g)) h g.
(** As a function of the rows it was called on before in the same process (Model/Objective.v), from generator [g] on. *)
Definition as_function (f : noisy) (g : G) : objfun := fun h x => fst (f x (state_after f g h)).
(** objective.py:44-61 evaluate: the generator of this process afterwards, the clock and the result. *)
Definition evaluate_with (f : noisy) (procs : nat) (fork : bool) (clock : nat -> Qc) (g : G) (t : nat) (x : mat) : G * nat * run (vec * costs) :=
  match evaluate (mk_obj (as_function f g) procs fork) clock [] t x with (h, t, r) => (state_after f g h, t, r) end.
End Noise.
Arguments noisy : clear implicits.

(** Additive noise, one number of a stream per call: the generator is the number of draws made so far. *)
Definition additive (mean : vec -> res Qc) (stream : nat -> Qc) : noisy nat :=
  fun x k => (m <- mean x ;; Ok (m + stream k)%Qc, S k).
