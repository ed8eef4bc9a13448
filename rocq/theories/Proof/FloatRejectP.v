(** Lemmas for Props/PFloatReject.v. *)
From Coq Require Import List ZArith Bool Reals Lra Lia.
From Flocq Require Import Core IEEE754.BinarySingleNaN.
From Verif.Model Require Import Py Float FloatRow FloatStop FloatCons FloatPipe FloatReject.
From Verif.Spec Require Import FloatSpec FloatConsSpec FloatPipeSpec FloatRejectSpec.
From Verif.Proof Require Import Num FloatP FloatStopP FloatConsP FloatPipeP.
From Verif.Props Require Import PFloatCons.
Import ListNotations.
Local Open Scope nat_scope.

Lemma fle_zero (v : float) : fle v f0 = true <-> (number v /\ (val v <= 0)%R \/ v = B754_infinity true).
Proof.
  destruct v as [s|s| |s m e B] eqn:E.
  - rewrite fle0 by reflexivity. split; [left; split; [reflexivity|assumption]|]. intros [(_ & H)|H]; [exact H|discriminate H].
  - destruct s; cbn; [split; auto|]. split; [discriminate|]. intros [(H & _)|H]; discriminate H.
  - cbn. split; [discriminate|]. intros [(H & _)|H]; discriminate H.
  - rewrite fle0 by reflexivity. split; [left; split; [reflexivity|assumption]|]. intros [(_ & H)|H]; [exact H|discriminate H].
Qed.
Lemma satisfies_kept es x b : satisfies es x = Ok b -> (b = true <-> kept es x).
Proof.
  intros S. destruct (satisfies_spec x es b S) as [_ B]. rewrite B, List.Forall_forall. unfold kept. split; intros H e I; destruct (H e I) as (v & E & L); exists v; (split; [exact E|]); now apply fle_zero.
Qed.
Lemma keep_sel es : forall D fs, indicator_constraints_f es D = Ok fs -> selected (kept es) D (keep_valid_f D fs).
Proof.
  unfold indicator_constraints_f. induction D as [|x D IH]; intros fs; cbn [mapM].
  - intros H. injection H as <-. constructor.
  - destruct (satisfies es x) as [b|] eqn:S; [|discriminate]. cbn [bind]. destruct (mapM _ D) as [gs|] eqn:M; [|discriminate]. cbn [bind]. intros H. apply Ok_inj in H. subst fs.
    specialize (IH gs eq_refl). pose proof (satisfies_kept es x b S) as K. unfold keep_valid_f. cbn [combine filter snd]. destruct b.
    + replace (feq (of_Z 1) (of_Z 1)) with true by (vm_compute; reflexivity). cbn [map fst]. apply sel_take; [now apply K|exact IH].
    + replace (feq (of_Z 0) (of_Z 1)) with false by (vm_compute; reflexivity). apply sel_skip; [|exact IH]. intros C. apply K in C. discriminate C.
Qed.
Lemma sel_app {A} (P : A -> Prop) a a' b b' : selected P a a' -> selected P b b' -> selected P (a ++ b) (a' ++ b').
Proof. induction 1; cbn; intros H2; auto; [apply sel_take|apply sel_skip]; auto. Qed.
Lemma sel_in {A} (P : A -> Prop) l l' : selected P l l' -> Forall (fun x => P x /\ In x l) l'.
Proof.
  induction 1 as [|x l l' p S IH|x l l' p S IH]; [constructor|constructor; [split; [exact p|now left]|]|]; (eapply Forall_impl; [|exact IH]; cbn; tauto).
Qed.
Lemma sel_fun {A} (P : A -> Prop) l a : selected P l a -> forall b, selected P l b -> a = b.
Proof. induction 1; intros b S; inversion S; subst; try contradiction; auto. f_equal. auto. Qed.

Lemma rounds_snoc ks u c n Ds D : rounds ks u c n Ds -> random_design_f ks (u (length Ds)) (c (length Ds)) n = Ok D -> rounds ks u c n (Ds ++ [D]).
Proof.
  intros R E t D' H. destruct (Nat.lt_ge_cases t (length Ds)) as [L|L].
  - rewrite nth_error_app1 in H by exact L. exact (R t D' H).
  - rewrite nth_error_app2 in H by exact L. destruct (t - length Ds) as [|k] eqn:K; [|destruct k; discriminate H]. injection H as <-. now replace t with (length Ds) by lia.
Qed.
Section Loop.
  Variables (ks : list fkind) (es : list fexpr) (u : nat -> nat -> nat -> float) (c : nat -> nat -> nat -> nat) (n : nat).
  Lemma reject_spec : forall fuel Ds samples rows, rounds ks u c n Ds -> selected (kept es) (concat Ds) samples ->
    reject_f fuel ks es u c n (length Ds) samples = Some (Ok rows) ->
    exists Ds' V, rounds ks u c n Ds' /\ selected (kept es) (concat Ds') V /\ n <= length V /\ rows = firstn n V.
  Proof.
    induction fuel as [|f IH]; intros Ds samples rows R S; cbn [reject_f]; [discriminate|].
    destruct (Nat.ltb_spec (length samples) n) as [L|L].
    - destruct (random_design_f ks (u (length Ds)) (c (length Ds)) n) as [D|] eqn:ED; cbn [bind]; [|discriminate].
      destruct (indicator_constraints_f es D) as [I|] eqn:EI; cbn [bind]; [|discriminate]. intros H.
      apply (IH (Ds ++ [D]) (samples ++ keep_valid_f D I)).
      + now apply rounds_snoc.
      + rewrite concat_app. cbn [concat]. rewrite app_nil_r. apply sel_app; [exact S|now apply keep_sel].
      + rewrite app_length. cbn [length]. now rewrite Nat.add_1_r.
    - intros H. injection H as <-. exists Ds, samples. auto.
  Qed.
  Hypothesis SP : fspace ks.
  Hypothesis WI : widths ks.
  Hypothesis FA : fair ks u c.
  Lemma round_ok t : exists D, random_design_f ks (u t) (c t) n = Ok D /\ length D = n /\ Forall (configuration ks) D.
  Proof. destruct FA as (A & B & C). apply design_ok; auto; intros; (eapply B || eapply C); eauto. Qed.
  Lemma rounds_conf Ds : rounds ks u c n Ds -> Forall (configuration ks) (concat Ds).
  Proof.
    intros R. apply Forall_forall. intros x I. apply in_concat in I. destruct I as (D & J & K). apply In_nth_error in J. destruct J as (t & J). apply R in J.
    destruct (round_ok t) as (D' & E & _ & F). rewrite E in J. apply Ok_inj in J. subst D'. rewrite Forall_forall in F. now apply F.
  Qed.
  Hypothesis CL : closed ks es.
  Lemma verdicts D : Forall (configuration ks) D -> exists I, indicator_constraints_f es D = Ok I.
  Proof.
    intros F. destruct (C120_decided es D) as (fs & E & _); [|eauto]. intros x e i Ix Ie M. rewrite Forall_forall in F. specialize (F x Ix). assert (LF : length ks = length x) by (clear - F; induction F; cbn; congruence). rewrite <- LF. exact (CL e i Ie M).
  Qed.
  Lemma reject_never_raises : forall fuel t samples e, reject_f fuel ks es u c n t samples <> Some (Raise e).
  Proof.
    induction fuel as [|f IH]; intros t samples e; cbn [reject_f]; [discriminate|]. destruct (Nat.ltb (length samples) n); [|discriminate].
    destruct (round_ok t) as (D & -> & _ & F). cbn [bind]. destruct (verdicts D F) as (I & ->). cbn [bind]. apply IH.
  Qed.
  Lemma reject_ends Ds V : rounds ks u c n Ds -> selected (kept es) (concat Ds) V -> n <= length V ->
    forall m A B samples, Ds = A ++ B -> length B = m -> selected (kept es) (concat A) samples -> exists rows, reject_f (S m) ks es u c n (length A) samples = Some (Ok rows).
  Proof.
    intros R S L. induction m as [|m IH]; intros A B samples E LB SA; cbn [reject_f].
    - destruct B; [|discriminate LB]. rewrite app_nil_r in E. subst A. rewrite (sel_fun _ _ _ SA _ S). destruct (Nat.ltb_spec (length V) n); [lia|]. eauto.
    - destruct (Nat.ltb_spec (length samples) n) as [K|K]; [|eauto]. destruct B as [|D B]; [discriminate LB|].
      assert (ED : random_design_f ks (u (length A)) (c (length A)) n = Ok D) by (apply R; rewrite E, nth_error_app2, Nat.sub_diag by lia; reflexivity).
      rewrite ED. cbn [bind]. destruct (round_ok (length A)) as (D' & ED' & _ & F). rewrite ED in ED'. apply Ok_inj in ED'. subst D'.
      destruct (verdicts D F) as (I & EI). rewrite EI. cbn [bind].
      destruct (IH (A ++ [D]) B (samples ++ keep_valid_f D I)) as (rows & Q).
      + now rewrite <- app_assoc.
      + now injection LB.
      + rewrite concat_app. cbn [concat]. rewrite app_nil_r. apply sel_app; [exact SA|now apply keep_sel].
      + exists rows. rewrite app_length in Q. cbn [length] in Q. rewrite Nat.add_1_r in Q. exact Q.
  Qed.
End Loop.
