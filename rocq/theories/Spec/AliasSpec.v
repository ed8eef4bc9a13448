(** Objectives that modify their argument. *)
From Coq Require Import String List ZArith QArith Qcanon Bool.
From Verif.Model Require Import Py Space Design Optim Objective BO Alias.
Import ListNotations.
Local Open Scope nat_scope.

(** What an objective leaves in the rows it is called on, one after the other, after the calls [h]. *)
Fixpoint left_by (f : mutfun) (h : list vec) (rows : mat) : mat :=
  match rows with [] => [] | x :: r => fst (f h x) :: left_by f (h ++ [x]) r end.
(** It modifies nothing. *)
Definition keeps (f : mutfun) : Prop := forall h x, fst (f h x) = x.

(** The same settings with the objective [o]. *)
Definition with_objective {M} (E : env M) (o : objective) : env M :=
  mk_env M (e_space E) (e_dedup E) (e_interval E) (e_norm E) (Some o) (e_batch E) (e_update E) (e_params E) (e_clock E) (e_lg E) (e_costfit E).

(** Two states with the same evaluations, report, surrogate and history. *)
Definition same_data {M} (s t : st M) : Prop :=
  s_X s = s_X t /\ s_Y s = s_Y t /\ s_report s = s_report t /\ s_hist s = s_hist t /\ s_model s = s_model t /\ s_num s = s_num t /\
  s_updates s = s_updates t /\ s_params s = s_params t.

(** References of the object point to arrays. *)
Definition sound {M} (s : hst M) : Prop := hs_X s < length (hs_heap s) /\ hs_sugg s < length (hs_heap s).

(** The user's program without its writes. *)
Definition is_write (u : uop) : bool := match u with UWrite _ _ => true | _ => false end.
Definition without_writes (us : list uop) : list uop := filter (fun u => negb (is_write u)) us.
