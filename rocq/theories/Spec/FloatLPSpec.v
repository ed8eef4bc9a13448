(** What is asked of the library's functions for local penalization, and that correctly rounded ones have it (Props/PFloatLP.v). *)
From Coq Require Import Reals List.
From Flocq Require Import Core IEEE754.BinarySingleNaN.
From Verif.Model Require Import Float FloatLP AcqR.
From Verif.Spec Require Import FloatSpec FloatStopSpec FloatCostSpec FloatAcqSpec.
Import ListNotations.
Local Open Scope R_scope.

(** exp is a number that is not negative below 40 and underflows to 0 below -1076 at the latest; log1p is a number that is not negative, and 0 at 0; log is
    as in Spec/FloatCostSpec.v; the logarithm of the distribution function is never positive, and at most -inf *)
Record lp_like (B : lp_lib) : Prop := {
  exp_below : forall x, number x -> val x < 40 -> number (exp_lp B x) /\ 0 <= val (exp_lp B x);
  exp_vanishes : forall x, number x -> val x <= -1076 -> val (exp_lp B x) = 0;
  log1p_pos : forall x, number x -> 0 <= val x -> number (log1p_lp B x) /\ 0 <= val (log1p_lp B x);
  log1p_zero : forall x, number x -> val x = 0 -> val (log1p_lp B x) = 0;
  log_ok : log_like (log_lp B);
  logcdf_neg : forall x, nan_p x = false -> at_most 0 (logcdf_lp B x) }.
(** The functions return the double nearest to the real result, -inf where it is too large for a double, and the limits at the infinities *)
Record lp_rounded (B : lp_lib) : Prop := {
  r_exp : forall x, number x -> val x < 40 -> number (exp_lp B x) /\ val (exp_lp B x) = nearest (exp (val x));
  r_log1p : forall x, number x -> 0 <= val x -> number (log1p_lp B x) /\ val (log1p_lp B x) = nearest (ln (1 + val x));
  r_log : forall x, number x -> 0 < val x -> number (log_lp B x) /\ val (log_lp B x) = nearest (ln (val x));
  r_log0 : forall x, number x -> val x = 0 -> log_lp B x = minus_inf;
  r_lognan : forall x, number x -> val x < 0 -> nan_p (log_lp B x) = true;
  r_logcdf : forall x, number x -> Rabs (nearest (ln (cdf (val x)))) < bpow radix2 1024 -> number (logcdf_lp B x) /\ val (logcdf_lp B x) = nearest (ln (cdf (val x)));
  r_logcdf_big : forall x, number x -> bpow radix2 1024 <= Rabs (nearest (ln (cdf (val x)))) -> logcdf_lp B x = minus_inf;
  r_logcdf_m : logcdf_lp B minus_inf = minus_inf;
  r_logcdf_p : number (logcdf_lp B plus_inf) /\ val (logcdf_lp B plus_inf) = 0 }.
(** A batch point: coordinates and radius are numbers, the width is a positive number *)
Definition penaliser (h : list float * (float * float)) : Prop :=
  numbers (fst h) /\ number (fst (snd h)) /\ number (snd (snd h)) /\ 0 < val (snd (snd h)).
(** The acquisitions whose values can be transformed: any number for softplus, numbers that are not positive (minus an improvement) for the logarithm, any number without a transformation *)
Definition transformable (t : transform) (u : float) : Prop :=
  number u /\ match t with TSoftplus => True | TNone => val u <= 0 | TOther => True end.
(** The Lipschitz constant for a least negated slope [g]: 10 where the slope -g is below the double next to 1e-7; and the double next to 1e-16 *)
Definition least_slope : R := 7555786372591432 * bpow radix2 (-76).
Definition slope (g : R) : R := if Rlt_dec (- g) least_slope then 10 else - g.
Definition least_deviation : R := 8112963841460668 * bpow radix2 (-106).
(** and the double next to 1e-50 *)
Definition least_improvement : R := 8424983333484575 * bpow radix2 (-219).
