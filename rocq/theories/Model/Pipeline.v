(** The evaluators inside the optimization loop: what BO.v takes as [e_batch] put together from the parts of Optim.v.
    Definitions only. *)
From Coq Require Import String List ZArith QArith Qcanon Bool.
From Verif.Model Require Import Py Space Design Optim Objective BO.
Import ListNotations.
Local Open Scope nat_scope.

(** What suggestions are made with, given the state [M] of the surrogate and of the random generators: the evaluator and
    its batch size (evaluators/__init__.py:10-20, arguments_manager.py:17-39), the acquisition and its gradient (the rows
    in the second argument are those AcquisitionLP penalises, None elsewhere), the names of the optimizer and of the anchor
    logic, the scores of Thompson sampling, the numbers of design points, the random generator and the local solver of the
    k-th use, the scores of ThompsonBatch, and what a suggestion does to the random generators. *)
Record suggester {M : Type} := mk_sg {
  sg_ev : evaluator; sg_size : nat;
  sg_f : M -> option mat -> acqf; sg_g : M -> option mat -> option acqg;
  sg_optimizer : string; sg_logic : string; sg_ats : M -> option (mat -> res vec);
  sg_ns : nat; sg_ns' : nat;
  sg_gen : M -> nat -> gen; sg_loc : M -> nat -> nat -> local_opt;
  sg_ts : M -> mat -> res vec; sg_next : M -> M }.
Arguments suggester : clear implicits.
Arguments mk_sg {M}.

Section Pipeline.
Context {M : Type}.

(** acquisitions/base.py:18-27 and bo.py:231: the acquisition of the object, its optimizer using the context manager that
    _compute_next_evaluations installs *)
Definition sg_acq (sp : space) (g : suggester M) (m : M) (pen : option mat) (cm : ctxmgr) : acq :=
  mk_acq sp (sg_f g m pen) (sg_g g m pen) (sg_optimizer g) (sg_logic g) (sg_ats g m) cm.

(** bo.py:241 evaluator.compute_batch(duplicate_manager=..., context_manager=...) *)
Definition compute_batch (sp : space) (g : suggester M) (m : M) (odm : option dupmgr) (cm : ctxmgr) : M * run mat :=
  (sg_next g m,
   match sg_ev g with
   | ESequential => sequential_batch (sg_acq sp g m None cm) (sg_ns g) (sg_gen g m 0) (sg_loc g m 0) odm
   | ERandom => random_batch (sg_acq sp g m None cm) (sg_size g) (sg_ns g) (sg_ns' g) (sg_gen g m 0) (sg_gen g m 1) (sg_loc g m 0) odm
   | ELP => snd (lp_compute_batch (sg_size g) (fun P => sg_acq sp g m P cm) (sg_ns g) (sg_gen g m) (sg_loc g m) odm (Some cm) None)
   | EThompson => thompson_batch (sg_acq sp g m None cm) (sg_ts g m) (sg_size g) (sg_ns' g) (sg_gen g m 1) (sg_loc g m 0) odm (Some cm)
   end).

(** A BO object whose evaluator is [g]. *)
Definition with_suggester (E : env M) (g : suggester M) : env M :=
  mk_env M (e_space E) (e_dedup E) (e_interval E) (e_norm E) (e_obj E) (compute_batch (e_space E) g) (e_update E) (e_params E)
    (e_clock E) (e_lg E) (e_costfit E).
End Pipeline.
