(** Noisy objectives: who draws which random numbers. *)
From Coq Require Import List ZArith QArith Qcanon Bool.
From Verif.Model Require Import Py Space Design Optim Objective Noise.
Import ListNotations.
Local Open Scope nat_scope.

(** The rows are evaluated one after the other, each with the generator its predecessor left. *)
Inductive in_turn {G} (f : noisy G) : G -> mat -> vec -> G -> Prop :=
  | turn_end : forall g, in_turn f g [] [] g
  | turn_row : forall g x y g1 rows ys g2, f x g = (Ok y, g1) -> in_turn f g1 rows ys g2 -> in_turn f g (x :: rows) (y :: ys) g2.
(** [m] consists of the entries i, i + n, i + 2n, ... of [l]. *)
Definition every {A} (n i : nat) (l m : list A) : Prop := forall k, nth_error m k = nth_error l (i + k * n).

(** One process: a single core, or processes that cannot be started. *)
Definition one_process (procs : nat) (fork : bool) : Prop := procs = 1 \/ (1 <= procs /\ fork = false).

(** Calls of evaluate during a run; before each, the rest of the program may draw some numbers.  [log] holds the rows and
    values of the calls. *)
Inductive calls (f : noisy nat) (procs : nat) (fork : bool) (clock : nat -> Qc) : nat -> nat -> list (mat * vec) -> Prop :=
  | calls_end : forall k t, calls f procs fork clock k t []
  | calls_more : forall k t d x k' t' ys cs log, evaluate_with f procs fork clock (k + d) t x = (k', t', Some (Ok (ys, cs))) ->
      calls f procs fork clock k' t' log -> calls f procs fork clock k t ((x, ys) :: log).
