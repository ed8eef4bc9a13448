(** The processes of a parallel evaluation: GPyOpt/core/task/objective.py:80-101 and GPyOpt/util/general.py:144-151, as a
    transition system in which the parent and the children take steps in any order.  Definitions only.

    Modelled: starting the children with fork (each child sees the history of the objective at that time), evaluating row
    by row, sending one message through a pipe, joining, receiving.  A message that does not fit into the buffer of the
    pipe is only written while the parent reads; recv on an empty pipe waits, also when the child is dead, because the
    parent keeps its own copy of the child's end open (objective.py:89-90, the list [pipe]). *)
From Coq Require Import List Bool Arith QArith Qcanon.
From Verif.Model Require Import Py Space Objective.
Import ListNotations.
Local Open Scope nat_scope.

(** A child: not started; evaluating, with the calls made in it, the rows left and the values so far; sending; ended
    normally; ended by an exception of the objective. *)
Inductive cstate := CNew | CRun (h : list vec) (todo : mat) (vals : vec) | CSend (m : vec) | CDone | CDead.
(** The parent: starting child i (line 91), joining child i (line 92), receiving from pipe i (98-100), finished. *)
Inductive parent := PStart (i : nat) | PJoin (i : nat) | PRecv (i : nat) (Y : vec) | PDone (Y : vec).
Record pstate := mk_ps { ps_parent : parent; ps_child : nat -> cstate; ps_pipe : nat -> option vec }.

Definition fupd {A} (g : nat -> A) (i : nat) (a : A) : nat -> A := fun j => if Nat.eqb j i then a else g j.
Definition ended (c : cstate) : bool := match c with CDone | CDead => true | _ => false end.

Section Par.
Variables (f : objfun) (n : nat) (h : list vec) (x : mat) (fits : vec -> bool).

(** objective.py:88-90 *)
Definition par_init : pstate := mk_ps (PStart 0) (fun _ => CNew) (fun _ => None).

Inductive pstep : pstate -> pstate -> Prop :=
(* objective.py:91 *)
| st_start i c b : i < n -> pstep (mk_ps (PStart i) c b) (mk_ps (PStart (S i)) (fupd c i (CRun h (stride n i x) [])) b)
| st_started c b : pstep (mk_ps (PStart n) c b) (mk_ps (PJoin 0) c b)
(* objective.py:92 *)
| st_join i c b : i < n -> ended (c i) = true -> pstep (mk_ps (PJoin i) c b) (mk_ps (PJoin (S i)) c b)
| st_joined c b : pstep (mk_ps (PJoin n) c b) (mk_ps (PRecv 0 (repeat q0 (length x))) c b)
(* objective.py:98-100 *)
| st_recv i Y c b m : i < n -> b i = Some m ->
    pstep (mk_ps (PRecv i Y) c b) (mk_ps (PRecv (S i) (put_stride n i Y m)) c (fupd b i None))
| st_recv_large i Y c b m : i < n -> c i = CSend m -> fits m = false ->
    pstep (mk_ps (PRecv i Y) c b) (mk_ps (PRecv (S i) (put_stride n i Y m)) (fupd c i CDone) b)
| st_received Y c b : pstep (mk_ps (PRecv n Y) c b) (mk_ps (PDone Y) c b)
(* objective.py:69-77 in a child *)
| st_row p i c b h' r rest vals y : i < n -> c i = CRun h' (r :: rest) vals -> f h' r = Ok y ->
    pstep (mk_ps p c b) (mk_ps p (fupd c i (CRun (h' ++ [r]) rest (vals ++ [y]))) b)
| st_raise p i c b h' r rest vals e : i < n -> c i = CRun h' (r :: rest) vals -> f h' r = Raise e ->
    pstep (mk_ps p c b) (mk_ps p (fupd c i CDead) b)
| st_end p i c b h' vals : i < n -> c i = CRun h' [] vals -> pstep (mk_ps p c b) (mk_ps p (fupd c i (CSend vals)) b)
(* general.py:149-150 in a child *)
| st_send p i c b m : i < n -> c i = CSend m -> fits m = true ->
    pstep (mk_ps p c b) (mk_ps p (fupd c i CDone) (fupd b i (Some m))).

(** Any schedule. *)
Inductive psteps : nat -> pstate -> pstate -> Prop :=
| ps_refl s : psteps 0 s s
| ps_trans k s s1 s2 : pstep s s1 -> psteps k s1 s2 -> psteps (S k) s s2.
End Par.
