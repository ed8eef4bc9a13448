(** C82 - C84: objective and acquisition values that are NaN or infinite.  Specification: Spec/IeeeSpec.v.  Model:
    Model/Ieee.v. *)
From Coq Require Import String List Bool Arith QArith Qcanon.
From Coq Require Import Reals.
From Verif.Model Require Import Py Space Design Optim Objective BO Ieee Util.
From Verif.Spec Require Import IeeeSpec UtilSpec.
From Verif.Proof Require Import IeeeP IeeeNorm.
Import ListNotations.
Local Open Scope nat_scope.
Local Open Scope string_scope.

(** C82, one of the objective values is NaN: the report names the point of the first NaN, its best value is NaN, and the
    running minima are NaN from there on, whatever better value the run has seen. *)
Theorem C82_nan : forall (X : mat) Y i x, length X = length Y -> first_at (fun y => y = NaN) Y i -> nth_error X i = Some x ->
  exists yb, compute_results_fl X Y = Ok (yb, x, NaN) /\ length yb = length Y /\
    forall j y, nth_error yb j = Some y -> (i <= j -> y = NaN) /\ (j < i -> least y (firstn (S j) Y)).
Proof. exact results_nan. Qed.
Print Assumptions C82_nan.
(** no NaN: the least value, the first point that has it, the running minima, infinities included *)
Theorem C82_numbers : forall (X : mat) Y, length X = length Y -> Y <> [] -> Forall number Y ->
  exists yb x m i, compute_results_fl X Y = Ok (yb, x, m) /\ least m Y /\ first_at (fun y => y = m) Y i /\ nth_error X i = Some x /\
    length yb = length Y /\ forall j y, nth_error yb j = Some y -> least y (firstn (S j) Y).
Proof. exact results_numbers. Qed.
Print Assumptions C82_numbers.
(** +infinity as the value of failed evaluations: the report is the best of the finite values *)
Theorem C82_penalty : forall (X : mat) Y a, length X = length Y -> ~ In NaN Y -> ~ In NInf Y -> In (Fin a) Y ->
  exists yb x m, compute_results_fl X Y = Ok (yb, x, Fin m) /\ In (Fin m) Y /\ (forall b, In (Fin b) Y -> (m <= b)%Qc) /\
    exists i, nth_error Y i = Some (Fin m) /\ nth_error X i = Some x.
Proof. exact results_penalty. Qed.
Print Assumptions C82_penalty.
(** finite values: the report of the optimization loop of BO.v *)
Theorem C82_finite_agrees : forall M (s s' : st M) Y, s_Y s = Some Y -> compute_results s = (s', Ok tt) ->
  exists yb x m, s_report s' = Some (yb, x, m) /\ compute_results_fl (s_X s) (map Fin Y) = Ok (map Fin yb, x, Fin m).
Proof. exact @results_agree. Qed.
Print Assumptions C82_finite_agrees.
Definition X_four : mat := [[Q2Qc 1]; [Q2Qc 2]; [Q2Qc 3]; [Q2Qc 4]].
Example C82_nonvacuous_nan : first_at (fun y => y = NaN) [Fin (Q2Qc 1); NaN; Fin (Q2Qc (-7)); NaN] 1 /\
  compute_results_fl X_four [Fin (Q2Qc 1); NaN; Fin (Q2Qc (-7)); NaN] = Ok ([Fin (Q2Qc 1); NaN; NaN; NaN], [Q2Qc 2], NaN).
Proof. split; [split; [exists NaN; auto|]|vm_compute; reflexivity]. intros [|j] y L H; [simpl in H; injection H as <-; discriminate|]. inversion L as [|? L']. inversion L'. Qed.
Example C82_nonvacuous_penalty :
  exists m, compute_results_fl X_four [PInf; Fin (Q2Qc 5); PInf; Fin (Q2Qc 3)] = Ok ([PInf; Fin (Q2Qc 5); Fin (Q2Qc 5); Fin m], [Q2Qc 4], Fin m) /\ m = Q2Qc 3.
Proof. eexists. split; vm_compute; reflexivity. Qed.

(** C83: what the model receives when normalize_Y is on. *)
Theorem C83_finite : forall shape Y t, Y <> [] -> vector_shape shape (length Y) ->
  normalize_fl shape (map Fin Y) t = (N <- normalize shape Y t ;; Ok (map Fin N)).
Proof. exact normalize_finite. Qed.
Print Assumptions C83_finite.
(** one value that is not finite: no normalised value is finite *)
Theorem C83_stats : forall shape Y, vector_shape shape (length Y) -> Exists (fun y => ~ finite_value y) Y ->
  exists N, normalize_fl shape Y "stats" = Ok N /\ length N = length Y /\ Forall (fun v => ~ finite_value v) N.
Proof. exact normalize_stats_nonfinite. Qed.
Print Assumptions C83_stats.
(** 'maxmin': all finite values become -1 and the others NaN, or everything becomes NaN *)
Theorem C83_maxmin : forall shape Y, vector_shape shape (length Y) -> Exists (fun y => ~ finite_value y) Y ->
  exists N, normalize_fl shape Y "maxmin" = Ok N /\ length N = length Y /\ Forall (fun v => v = NaN \/ v = Fin (-1)%R) N /\
    (In NaN Y \/ In NInf Y -> Forall (fun v => v = NaN) N).
Proof. exact normalize_maxmin_nonfinite. Qed.
Print Assumptions C83_maxmin.
Example C83_nonvacuous : vector_shape [3; 1] 3 /\ Exists (fun y => ~ finite_value y) [Fin 1%R; PInf; Fin 4%R] /\
  normalize_fl [3; 1] [Fin 1%R; PInf; Fin 4%R] "stats" = Ok [NInf; NaN; NInf].
Proof.
  split; [split; [left; auto|intros k [<-|[<-|[]]]; auto]|]. split; [right; left; intros (a & H); discriminate|].
  destruct (C83_stats [3; 1] [Fin 1%R; PInf; Fin 4%R]) as (N & H & _ & _).
  { split; [left; auto|intros k [<-|[<-|[]]]; auto]. } { right; left; intros (a & H); discriminate. }
  unfold normalize_fl in *. cbn [length Nat.eqb fold_right Nat.max negb] in *. change (String.eqb "stats" "stats") with true in *. cbv iota zeta in *.
  rewrite fstd_nan by (right; left; intros (a & Q); discriminate). cbn [flt]. unfold fmean, fsum. cbn [fold_right fadd length fdiv].
  destruct (Req_EM_T (INR 3) 0) as [E|E]; [reflexivity|]. unfold signed_inf. cbn [fsign].
  replace (rltb 0 (INR 3)) with true; [reflexivity|]. symmetry. apply rltb_spec. apply lt_0_INR. repeat constructor.
Qed.

(** C84: the candidates of the acquisition optimizer.  When the first candidate has a value that is a number, the answer is
    the first of the candidates with the least value among the numbers; NaN candidates are passed over. *)
Theorem C84_candidates : forall pts p, nth_error pts 0 = Some p -> number (snd p) ->
  exists r i, best_candidate pts = Ok r /\ nth_error pts i = Some r /\ number (snd r) /\
    (forall y, In y pts -> number (snd y) -> le_ext (snd r) (snd y)) /\
    (forall j y, j < i -> nth_error pts j = Some y -> ~ le_ext (snd y) (snd r)).
Proof. exact candidate_number. Qed.
Print Assumptions C84_candidates.
(** When it is NaN it is the answer, whatever the values of the others. *)
Theorem C84_first_nan : forall pts p, nth_error pts 0 = Some p -> snd p = NaN -> best_candidate pts = Ok p.
Proof. exact candidate_nan. Qed.
Print Assumptions C84_first_nan.
Theorem C84_refuted : exists pts r y, best_candidate pts = Ok r /\ snd r = NaN /\ In y pts /\ number (snd y).
Proof.
  exists [([Q2Qc 0], NaN); ([Q2Qc 1], Fin (Q2Qc (-5)))], ([Q2Qc 0], NaN), ([Q2Qc 1], Fin (Q2Qc (-5))).
  split; [apply C84_first_nan; reflexivity|]. split; [reflexivity|]. split; [right; left; reflexivity|discriminate].
Qed.
Print Assumptions C84_refuted.
Example C84_nonvacuous :
  best_candidate [([Q2Qc 0], Fin (Q2Qc 2)); ([Q2Qc 1], NaN); ([Q2Qc 2], Fin (Q2Qc (-5))); ([Q2Qc 3], Fin (Q2Qc (-5)))] = Ok ([Q2Qc 2], Fin (Q2Qc (-5))).
Proof. vm_compute. reflexivity. Qed.
