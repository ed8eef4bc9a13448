(** The titles of the columns in the file of surrogate parameters. *)
From Coq Require Import String List QArith Qcanon.
From Verif.Model Require Import Py Report Header.
From Verif.Spec Require Import HeaderSpec.
From Verif.Proof Require Import HeaderP.
Import ListNotations.
Local Open Scope string_scope.
Local Open Scope list_scope.
Local Open Scope nat_scope.

(** C122: with a plain GP model the columns of the models file are titled correctly exactly when the library's flat list of names does not
    leave out fixed parameters, or none of them is fixed. *)
Theorem C122_gp : forall drops ps recorded, recorded <> [] -> recorded_for ps recorded ->
  exists t, models_file false drops ps (Some recorded) = Ok t /\
    (titled ps t <-> (drops = true -> forall p, In p ps -> p_fixed p = true -> p_labels p = [])).
Proof. exact gp_exact. Qed.
Print Assumptions C122_gp.

(** With exact_feval only the noise is fixed unless the user fixed more: it is the last column, which then has no title; the others are right. *)
Theorem C122_exact_feval : forall others recorded, recorded <> [] -> recorded_for (parameters others true) recorded ->
  (forall p, In p others -> p_fixed p = false) ->
  exists t, models_file false true (parameters others true) (Some recorded) = Ok t /\
    fst t = "Iteration" :: entry_labels others /\ forall row, In row (snd t) -> List.length row = S (List.length (fst t)).
Proof. exact noise_only. Qed.
Print Assumptions C122_exact_feval.

(** With the MCMC model the titles are right exactly when every parameter of the kernel is a single number. *)
Theorem C122_mcmc : forall drops ps recorded, recorded <> [] -> recorded_for ps recorded -> (forall p, In p ps -> p_labels p <> [] /\ plain_label p) ->
  exists t, models_file true drops ps (Some recorded) = Ok t /\ (titled ps t <-> (forall p, In p ps -> List.length (p_labels p) = 1)).
Proof. exact mcmc_exact. Qed.
Print Assumptions C122_mcmc.

Definition variance := mk_param "Mat52.variance" ["Mat52.variance"] false.
Definition lengthscale (fixed : bool) := mk_param "Mat52.lengthscale" ["Mat52.lengthscale[0]"; "Mat52.lengthscale[1]"] fixed.
Definition one_row (n : nat) : mat := [repeat (Q2Qc 1) n].

(** The parameters that the default model has; a row of it meets the hypotheses and its file is right. *)
Example C122_nonvacuous :
  recorded_for (parameters [variance; lengthscale false] false) (one_row 4) /\
  models_file false true (parameters [variance; lengthscale false] false) (Some (one_row 4)) =
    Ok (["Iteration"; "Mat52.variance"; "Mat52.lengthscale[0]"; "Mat52.lengthscale[1]"; "Gaussian_noise.variance"], [nat2q 1 :: repeat (Q2Qc 1) 4]).
Proof. split; [intros r [<-|[]]; reflexivity | reflexivity]. Qed.

(** The titles are not always right: a fixed length scale shifts the titles of a plain GP, and a kernel with one length scale per variable
    shifts those of the MCMC model: the second length scale is titled as the noise, and the noise not at all. *)
Theorem C122_refuted : (exists t, models_file false true (parameters [lengthscale true; variance] false) (Some (one_row 4)) = Ok t /\
    fst t = ["Iteration"; "Mat52.variance"; "Gaussian_noise.variance"] /\ ~ titled (parameters [lengthscale true; variance] false) t) /\
  (exists t, models_file true true (parameters [variance; lengthscale false] false) (Some (one_row 4)) = Ok t /\
    fst t = ["Iteration"; "Mat52.variance"; "Mat52.lengthscale"; "Gaussian_noise.variance"] /\ ~ titled (parameters [variance; lengthscale false] false) t).
Proof.
  split; (eexists; split; [reflexivity|]; split; [reflexivity|]; intros Ht).
  - specialize (Ht _ (or_introl eq_refl) 1 _ eq_refl). discriminate.
  - specialize (Ht _ (or_introl eq_refl) 4 _ eq_refl). discriminate.
Qed.
Print Assumptions C122_refuted.
