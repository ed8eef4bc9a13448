(** C134: the report in double precision.  Specification: Spec/FloatReportSpec.v, Spec/FloatDupSpec.v, Spec/IeeeSpec.v.  Model: Model/FloatReport.v. *)
From Coq Require Import List Arith Lia QArith Qcanon Bool.
From Flocq Require Import IEEE754.BinarySingleNaN.
From Verif.Model Require Import Py Ieee Float FloatReport.
From Verif.Spec Require Import IeeeSpec FloatSpec FloatDupSpec FloatReportSpec.
From Verif.Proof Require Import FloatP FloatRowP FloatReportP.
Import ListNotations.
Local Open Scope nat_scope.

(** Without NaN: fx_opt is the least value, x_opt the first row that has it, Y_best the running minima; nothing is rounded, infinities included. *)
Theorem C134_report : forall A (X : list A) Y, length X = length Y -> Y <> [] -> (forall y, In y Y -> nan_p y = false) ->
  exists Y_best x_opt fx_opt i y, compute_results_f X Y = Ok (Y_best, x_opt, fx_opt) /\ nth_error X i = Some x_opt /\ nth_error Y i = Some y /\ same_number fx_opt y /\
    (forall z, In z Y -> at_most fx_opt z) /\ (forall j z, j < i -> nth_error Y j = Some z -> ~ same_number fx_opt z) /\ length Y_best = length Y /\
    forall j b, nth_error Y_best j = Some b -> (exists z, In z (firstn (S j) Y) /\ same_number b z) /\ forall z, In z (firstn (S j) Y) -> at_most b z.
Proof. exact @report_ok. Qed.
Print Assumptions C134_report.
(** With NaN: the row of the first NaN, NaN as its value, and NaN in Y_best exactly from there on. *)
Theorem C134_nan : forall A (X : list A) Y i x, length X = length Y -> first_at (fun y => nan_p y = true) Y i -> nth_error X i = Some x ->
  exists Y_best fx_opt, compute_results_f X Y = Ok (Y_best, x, fx_opt) /\ nan_p fx_opt = true /\ length Y_best = length Y /\
    forall j b, nth_error Y_best j = Some b -> (nan_p b = true <-> i <= j).
Proof. exact @report_nan. Qed.
Print Assumptions C134_nan.
(** maximize=True: the recorded values are those of f negated, and minus fx_opt is exactly the largest value of f, at x_opt. *)
Theorem C134_maximize : forall A (f : A -> res float) X fs, mapM f X = Ok fs -> X <> [] -> (forall v, In v fs -> nan_p v = false) ->
  exists Y Y_best x_opt fx_opt v, mapM (sign_f f) X = Ok Y /\ compute_results_f X Y = Ok (Y_best, x_opt, fx_opt) /\ In x_opt X /\ f x_opt = Ok v /\
    same_number (Bopp fx_opt) v /\ forall w, In w fs -> at_most w (Bopp fx_opt).
Proof.
  intros A f X fs E NE NN.
  assert (H : mapM (sign_f f) X = Ok (map Bopp fs) /\ length fs = length X /\ forall i x, nth_error X i = Some x -> exists v, nth_error fs i = Some v /\ f x = Ok v).
  { clear NE NN. revert fs E. induction X as [|x X IH]; intros fs E; cbn [mapM] in E; [injection E as <-; split; [reflexivity|]; split; [reflexivity|]; intros [|i] x H; discriminate H|].
    destruct (f x) as [v|e] eqn:F; cbn [bind] in E; [|discriminate]. destruct (mapM f X) as [vs|e] eqn:M; cbn [bind] in E; [|discriminate]. injection E as <-. destruct (IH vs eq_refl) as (H1 & H2 & H3). split; [|split].
    - cbn [mapM]. unfold sign_f at 1. rewrite F. cbn [bind]. rewrite H1. reflexivity.
    - cbn. now rewrite H2.
    - intros [|i] z Z; cbn in *; [injection Z as <-; eauto|now apply H3]. }
  destruct H as (H1 & H2 & H3). destruct (report_ok X (map Bopp fs)) as (yb & x & m & i & y & R & RX & RY & SM & AM & _).
  - transitivity (length fs); [now symmetry|symmetry; apply map_length].
  - destruct fs; [destruct X; [congruence|discriminate H2]|discriminate].
  - intros y Y. apply in_map_iff in Y as (v & <- & V). specialize (NN v V). destruct v; try discriminate NN; reflexivity.
  - destruct (H3 i x RX) as (v & NV & FV). pose proof (map_nth_error (Bopp : float -> float) i fs NV) as RZ. assert (EY : y = Bopp v) by (apply Some_eq; rewrite <- RY; exact RZ). subst y. exists (map Bopp fs), yb, x, m, v. split; [exact H1|]. split; [exact R|]. split; [eapply nth_error_In; eauto|].
    split; [exact FV|]. split; [now apply opp_same|]. intros w W. apply opp_most. apply AM. now apply in_map.
Qed.
Print Assumptions C134_maximize.
(** This is the report on extended numbers (C82, and for finite values C33): every double is such a number, and the two reports are the same. *)
Theorem C134_agrees : (forall y, exists v, is_value y v) /\
  forall (X : mat) Y Y', Forall2 is_value Y Y' -> same_report (compute_results_f X Y) (compute_results_fl X Y').
Proof. split; [exact every_double|exact results_value]. Qed.
Print Assumptions C134_agrees.

Definition is_row (r : res (list float * nat * float)) (x : nat) : bool := match r with Ok (_, y, _) => Nat.eqb x y | Raise _ => false end.
(** 0.0 and -0.0 are the same value, the first is reported; the least double above 1 is found among equal-looking ones; an infinity is passed over; NaN is not. *)
Example C134_nonvacuous :
  is_row (compute_results_f [1; 2] [B754_zero false; B754_zero true]) 1 = true /\
  is_row (compute_results_f [1; 2; 3] [lit 4503599627370498 (-52); B754_infinity false; lit 4503599627370497 (-52)]) 3 = true /\
  is_row (compute_results_f [1; 2; 3] [of_Z (-5); (B754_nan : float); B754_infinity true]) 2 = true /\
  first_at (fun y : float => nan_p y = true) [of_Z (-5); (B754_nan : float); B754_infinity true] 1 /\
  (exists fs, mapM (fun n => Ok (of_Z (Z.of_nat n))) [4; 7; 6] = Ok fs /\ forallb (fun v => negb (nan_p v)) fs = true) /\
  (exists Y, mapM (sign_f (fun n => Ok (of_Z (Z.of_nat n)))) [4; 7; 6] = Ok Y /\ is_row (compute_results_f [4; 7; 6] Y) 7 = true).
Proof.
  split; [vm_compute; reflexivity|]. split; [vm_compute; reflexivity|]. split; [vm_compute; reflexivity|]. split.
  { split; [exists B754_nan; split; reflexivity|]. intros [|j] y L H; [cbn [nth_error] in H; injection H as <-; vm_compute; discriminate|lia]. }
  split; (eexists; split; [reflexivity|vm_compute; reflexivity]).
Qed.
