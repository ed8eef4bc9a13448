(** C113: objectives that draw random numbers. *)
From Coq Require Import List ZArith QArith Qcanon Bool Arith Lia.
From Verif.Model Require Import Py Space Design Optim Objective Noise.
From Verif.Spec Require Import NoiseSpec.
From Verif.Proof Require Import Dec Num BOP NoiseP.
Import ListNotations.
Local Open Scope nat_scope.

(** In one process the rows are evaluated in order, each with the generator its predecessor left, and the caller goes on with
    the generator after the last. *)
Theorem C113_one_process {G} (f : noisy G) procs fork clock g t x g' t' ys cs : one_process procs fork ->
  evaluate_with f procs fork clock g t x = (g', t', Some (Ok (ys, cs))) -> in_turn f g x ys g'.
Proof. apply sequential. Qed.

(** With several processes every process starts from the caller's generator and evaluates its rows in order; the caller's
    generator is left as it was. *)
Theorem C113_processes {G} (f : noisy G) procs clock g t x g' t' ys cs : 2 <= procs ->
  evaluate_with f procs true clock g t x = (g', t', Some (Ok (ys, cs))) ->
  g' = g /\ length ys = length x /\
  forall i, i < procs -> exists rows vals gi, every procs i x rows /\ every procs i ys vals /\ in_turn f g rows vals gi.
Proof.
  intros P E. destruct (parallel _ _ _ _ _ _ _ _ _ _ P E) as (-> & L & T). split; [reflexivity|]. split; [exact L|].
  intros i I. destruct (T i I) as (gi & Ti). exists (stride procs i x), (stride procs i ys), gi.
  split; [|split; [|exact Ti]]; intros k; apply stride_nth; lia.
Qed.

(** Additive noise, one draw per row: in one process row r gets the r-th next draw. *)
Theorem C113_draws mean stream procs fork clock k t x k' t' ys cs : one_process procs fork ->
  evaluate_with (additive mean stream) procs fork clock k t x = (k', t', Some (Ok (ys, cs))) ->
  k' = k + length x /\ length ys = length x /\
  forall r a y, nth_error x r = Some a -> nth_error ys r = Some y -> exists m, mean a = Ok m /\ y = (m + stream (k + r)%nat)%Qc.
Proof. intros O E. apply (turn_additive mean stream). now apply (C113_one_process _ procs fork clock k t x k' t' ys cs). Qed.
(** With n processes it gets the draw number r / n: the first n rows share the first. *)
Theorem C113_draws_processes mean stream procs clock k t x k' t' ys cs : 2 <= procs ->
  evaluate_with (additive mean stream) procs true clock k t x = (k', t', Some (Ok (ys, cs))) ->
  k' = k /\ length ys = length x /\
  forall r a y, nth_error x r = Some a -> nth_error ys r = Some y -> exists m, mean a = Ok m /\ y = (m + stream (k + r / procs)%nat)%Qc.
Proof. apply parallel_additive. Qed.

(** One process: however often it is called and whatever is drawn in between, no draw is used for two rows. *)
Theorem C113_fresh mean stream procs fork clock k t log : one_process procs fork ->
  calls (additive mean stream) procs fork clock k t log ->
  exists ps : list nat, NoDup ps /\
    Forall2 (fun xy p => exists m, mean (fst xy) = Ok m /\ snd xy = (m + stream p)%Qc) (concat (map (fun b => combine (fst b) (snd b)) log)) ps.
Proof. intros O C. destruct (calls_fresh _ _ _ _ _ _ _ _ O C) as (ps & N & _ & F). eauto. Qed.

(** Several processes: the noise of rows in the same round is the same number, whatever the stream: it cancels in their
    difference, so evaluating one location n times returns n equal values ... *)
Theorem C113_fresh_refuted_in_batch mean stream procs clock k t x k' t' ys cs : 2 <= procs ->
  evaluate_with (additive mean stream) procs true clock k t x = (k', t', Some (Ok (ys, cs))) ->
  forall r s a b ya yb ma mb, r / procs = s / procs -> nth_error x r = Some a -> nth_error x s = Some b ->
    nth_error ys r = Some ya -> nth_error ys s = Some yb -> mean a = Ok ma -> mean b = Ok mb -> (ya - yb = ma - mb)%Qc.
Proof.
  intros P E r s a b ya yb ma mb RS A B YA YB MA MB. destruct (parallel_additive _ _ _ _ _ _ _ _ _ _ _ P E) as (_ & _ & D).
  destruct (D r a ya A YA) as (m1 & M1 & ->). destruct (D s b yb B YB) as (m2 & M2 & ->).
  rewrite MA in M1. rewrite MB in M2. injection M1 as <-. injection M2 as <-. rewrite RS. ring.
Qed.
(** ... and the next call repeats the noise of this one row for row. *)
Theorem C113_fresh_refuted_next_batch mean stream procs clock k t x k' t' ys cs t2 x2 k2 t2' ys2 cs2 : 2 <= procs ->
  evaluate_with (additive mean stream) procs true clock k t x = (k', t', Some (Ok (ys, cs))) ->
  evaluate_with (additive mean stream) procs true clock k' t2 x2 = (k2, t2', Some (Ok (ys2, cs2))) ->
  forall r a b ya yb ma mb, nth_error x r = Some a -> nth_error x2 r = Some b ->
    nth_error ys r = Some ya -> nth_error ys2 r = Some yb -> mean a = Ok ma -> mean b = Ok mb -> (yb - mb = ya - ma)%Qc.
Proof.
  intros P E E2 r a b ya yb ma mb A B YA YB MA MB. destruct (parallel_additive _ _ _ _ _ _ _ _ _ _ _ P E) as (-> & _ & D).
  destruct (parallel_additive _ _ _ _ _ _ _ _ _ _ _ P E2) as (_ & _ & D2).
  destruct (D r a ya A YA) as (m1 & M1 & ->). destruct (D2 r b yb B YB) as (m2 & M2 & ->).
  rewrite MA in M1. rewrite MB in M2. injection M1 as <-. injection M2 as <-. ring.
Qed.

(** Five rows, a mean that is the first coordinate, a stream 100, 101, 102, ...: one process, two processes, and two processes
    that cannot be started. *)
Definition noise_rows : mat := [[z2q 1]; [z2q 2]; [z2q 3]; [z2q 4]; [z2q 5]].
Definition noise_mean : vec -> res Qc := fun x => Ok (nth 0 x q0).
Definition noise_stream : nat -> Qc := fun k => z2q (100 * Z.of_nat (S k)).
Definition values_of {G T C} (r : G * T * run (vec * C)) : option vec := match snd r with Some (Ok (ys, _)) => Some ys | _ => None end.
Definition caller_of {G T C} (r : G * T * run (vec * C)) : G := fst (fst r).
Example C113_nonvacuous_one :
  values_of (evaluate_with (additive noise_mean noise_stream) 1 true (fun _ => q0) 0 0 noise_rows) = Some (map z2q [101; 202; 303; 404; 505]%Z) /\
  caller_of (evaluate_with (additive noise_mean noise_stream) 1 true (fun _ => q0) 0 0 noise_rows) = 5.
Proof. split; vm_compute; reflexivity. Qed.
Example C113_nonvacuous_two :
  values_of (evaluate_with (additive noise_mean noise_stream) 2 true (fun _ => q0) 0 0 noise_rows) = Some (map z2q [101; 102; 203; 204; 305]%Z) /\
  caller_of (evaluate_with (additive noise_mean noise_stream) 2 true (fun _ => q0) 0 0 noise_rows) = 0.
Proof. split; vm_compute; reflexivity. Qed.
Example C113_nonvacuous_fallback :
  values_of (evaluate_with (additive noise_mean noise_stream) 2 false (fun _ => q0) 0 0 noise_rows) = Some (map z2q [101; 202; 303; 404; 505]%Z).
Proof. vm_compute; reflexivity. Qed.
Example C113_nonvacuous_calls : exists log, length log = 2 /\ calls (additive noise_mean noise_stream) 1 true (fun _ => q0) 0 0 log.
Proof.
  eexists [(_, _); (_, _)]. split; [reflexivity|]. eapply (calls_more _ _ _ _ 0 0 3 noise_rows); [vm_compute; reflexivity|].
  eapply (calls_more _ _ _ _ _ _ 2 noise_rows); [vm_compute; reflexivity|]. constructor.
Qed.

Print Assumptions C113_one_process.
Print Assumptions C113_processes.
Print Assumptions C113_draws.
Print Assumptions C113_draws_processes.
Print Assumptions C113_fresh.
Print Assumptions C113_fresh_refuted_in_batch.
Print Assumptions C113_fresh_refuted_next_batch.
