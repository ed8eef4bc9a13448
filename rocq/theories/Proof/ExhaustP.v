(** Rows of a finite space. *)
From Coq Require Import List ZArith QArith Qcanon Bool Lia.
From Verif.Model Require Import Py Space.
From Verif.Spec Require Import SpaceSpec BOSpec PipelineSpec.
From Verif.Proof Require Import Num SpaceP RoundP PipelineP.
Import ListNotations.
Local Open Scope nat_scope.

Lemma domain_len : forall ks, Forall wf_kind ks -> forall a b, in_domain ks a -> in_domain ks b -> length a = length b.
Proof.
  induction ks as [|k ks IH]; intros W a b A B; inversion A as [|k1 ks1 ba ra Va HA]; inversion B as [|k2 ks2 bb rb Vb HB]; subst; [reflexivity|].
  inversion W as [|? ? W1 W2]; subst. rewrite !app_length. f_equal; [|exact (IH W2 ra rb HA HB)].
  destruct k; cbn [value_of] in Va, Vb; try (destruct Va as (? & -> & _), Vb as (? & -> & _); reflexivity). now apply W1.
Qed.
Lemma dist2_sum : forall a b, qsum (map (fun p => ((fst p - snd p) * (fst p - snd p))%Qc) (combine a b)) = dist2 a b.
Proof.
  induction a as [|x a IH]; intros [|y b]; try reflexivity. cbn [combine map fst snd]. rewrite qsum_cons, IH. reflexivity.
Qed.
Lemma within_zero ks a b : Forall wf_kind ks -> in_domain ks a -> in_domain ks b -> within_eps 0 a b -> a = b.
Proof.
  intros W A B [_ H]. rewrite dist2_sum in H. apply dist2_zero; [exact (domain_len ks W a b A B)|]. replace 0%Qc with (0 * 0)%Qc by ring. exact H.
Qed.
Lemma all_present ks X : finite ks -> Forall (in_domain ks) X -> NoDup X -> configurations ks <= length X -> forall t, in_domain ks t -> In t X.
Proof.
  intros F I N L t T. apply (NoDup_length_incl N (l' := all_rows ks)).
  - rewrite all_rows_length. exact L.
  - intros u U. rewrite Forall_forall in I. apply in_domain_listed; auto.
  - now apply in_domain_listed.
Qed.
