(** Several optimizers that were given the same surrogate object: methods/modular_bayesian_optimization.py:22-40 passes the model of the caller on to
    core/bo.py:44, which stores it without copying it.  Definitions only. *)
From Coq Require Import String List ZArith QArith Qcanon Bool Arith.
From Verif.Model Require Import Py Space Design Optim Objective BO.
Import ListNotations.
Local Open Scope nat_scope.

Section Shared.
(** [S] is the state of the surrogate.  [G] is the rest of what an optimizer is built on: acquisition, evaluator and its random numbers. *)
Context {S G : Type}.

(** bo.py:60-76, 78-175: one call by the user, with what suggest_next_locations returns (None: run_optimization returns nothing) *)
Definition call (E : env (S * G)) (s : st (S * G)) (o : op) : st (S * G) * run (option mat) :=
  match o with
  | ORun fuel mi mt eps ctx => let (s, r) := run_optimization fuel E s mi mt eps ctx in (s, _ <~ r ;; Some (Ok None))
  | OSuggest ctx p i => let (s, r) := suggest_next_locations E s ctx p i in (s, b <~ r ;; Some (Ok (Some b)))
  end.

(** bo.py:44 self.model = model: the optimizer sees the surrogate as it is now *)
Definition with_surrogate (c : S) (s : st (S * G)) : st (S * G) := set_model s (c, snd (s_model s)).
Definition store (ss : nat -> st (S * G)) (i : nat) (s : st (S * G)) : nat -> st (S * G) := fun j => if Nat.eqb j i then s else ss j.

(** Calls on several optimizers that share the surrogate, in the order the user makes them: what is returned, and the optimizers afterwards.
    [c] is the surrogate; exceptions are caught by the user. *)
Fixpoint together (Es : nat -> env (S * G)) (c : S) (ss : nat -> st (S * G)) (calls : list (nat * op)) : list (nat * run (option mat)) * (nat -> st (S * G)) :=
  match calls with
  | [] => ([], ss)
  | (i, o) :: calls =>
      let (s, r) := call (Es i) (with_surrogate c (ss i)) o in
      let (rs, ss) := together Es (fst (s_model s)) (store ss i s) calls in ((i, r) :: rs, ss)
  end.
(** Calls on one optimizer that has its surrogate for itself *)
Fixpoint by_itself (E : env (S * G)) (s : st (S * G)) (os : list op) : list (run (option mat)) * st (S * G) :=
  match os with
  | [] => ([], s)
  | o :: os => let (s, r) := call E s o in let (rs, s) := by_itself E s os in (r :: rs, s)
  end.
End Shared.
