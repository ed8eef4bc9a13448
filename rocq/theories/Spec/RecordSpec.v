(** What the record of parameters should show. *)
From Coq Require Import List.
From Verif.Model Require Import Record.
Import ListNotations.

Section S.
Context {P : Type}.
(** A surrogate that has not been updated, and no record. *)
Definition untrained : rstate P := mk_rstate None RNone.
Definition steps (shares : bool) (l : list (step P)) (s : rstate P) : rstate P := fold_left (do_step shares) l s.
(** The parameters after each of the updates [us], [p] being those before. *)
Fixpoint after_updates (p : P) (us : list (option P)) : list P :=
  match us with [] => [] | u :: us => let q := match u with Some q => q | None => p end in q :: after_updates q us end.
(** A call of run_optimization after any history.  num_acquisitions is 0 at its first update, so that one always sets parameters ([q]). *)
Definition run_of (shares : bool) (history : list (step P)) (q : P) (us : list (option P)) : rstate P :=
  steps shares (history ++ Begin :: Update (Some q) :: map Update us) untrained.
End S.
