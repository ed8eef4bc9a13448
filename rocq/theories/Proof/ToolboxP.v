(** Facts about the exported helpers. *)
From Coq Require Import List ZArith Reals Lia Lra.
From Coquelicot Require Import Coquelicot.
From Verif.Model Require Import Py Util Toolbox.
From Verif.Spec Require Import PlotSpec.
From Verif.Proof Require Import UtilP.
Import ListNotations.
Local Open Scope R_scope.

Lemma argmin_from_spec : forall l i best low all, nth_error all best = Some low -> (forall k a, nth_error l k = Some a -> nth_error all (i + k) = Some a) ->
  exists low', nth_error all (argmin_from i best low l) = Some low' /\ low' <= low /\ forall a, In a l -> low' <= a.
Proof.
  induction l as [|a l IH]; intros i best low all H HL; cbn [argmin_from].
  - exists low. split; [exact H|]. split; [lra|]. intros a [].
  - assert (A0' : nth_error all i = Some a) by (rewrite <- (Nat.add_0_r i); now apply HL).
    assert (HL' : forall k b, nth_error l k = Some b -> nth_error all (S i + k) = Some b) by (intros k b HB; replace (S i + k)%nat with (i + S k)%nat by lia; now apply HL).
    destruct (Rlt_dec a low) as [L|L].
    + destruct (IH (S i) i a all A0' HL') as (low' & E1 & E2 & E3). exists low'. split; [exact E1|]. split; [lra|]. intros b [<-|I]; [exact E2|auto].
    + destruct (IH (S i) best low all H HL') as (low' & E1 & E2 & E3). exists low'. split; [exact E1|]. split; [exact E2|]. intros b [<-|I]; [lra|auto].
Qed.
Lemma argmin_spec l : l <> [] -> exists j, argmin l = Ok j /\ least (nth j l 0) l.
Proof.
  intros N. destruct l as [|a t]; [congruence|]. cbn [argmin]. eexists. split; [reflexivity|].
  destruct (argmin_from_spec t 1 0 a (a :: t) eq_refl) as (low & E1 & E2 & E3); [intros k b H; exact H|].
  rewrite (nth_error_nth _ _ _ E1). split; [eapply nth_error_In; eauto|]. intros y [<-|I]; auto.
Qed.
Lemma least_lmin l m : least m l -> lmin l = m.
Proof. intros [I L]. destruct (lmin_spec l) as [A B]; [intros ->; destruct I|]. apply Rle_antisym; auto. Qed.

Lemma mapM_ok {A B} (f : A -> res B) : forall l, (forall a, In a l -> exists b, f a = Ok b) ->
  exists bs, mapM f l = Ok bs /\ length bs = length l /\ forall i a, nth_error l i = Some a -> exists b, nth_error bs i = Some b /\ f a = Ok b.
Proof.
  induction l as [|a l IH]; intros H; [exists []; split; [reflexivity|]; split; [reflexivity|]; intros [|i] a E; discriminate|].
  destruct (H a (or_introl eq_refl)) as (b & Eb). destruct IH as (bs & E1 & E2 & E3); [intros; apply H; now right|].
  exists (b :: bs). cbn [mapM]. rewrite Eb. cbn [bind]. rewrite E1. split; [reflexivity|]. split; [cbn; now rewrite E2|].
  intros [|i] x E; cbn in E; [injection E as <-; exists b; auto|exact (E3 i x E)].
Qed.

(** ---- the average over samples *)
Definition adds (ys : list (list R)) (sum : option (list R)) : option (list R) :=
  fold_left (fun t y => Some (match t with None => y | Some t => add t y end)) ys sum.
Lemma assign_same kern s : length s = length kern -> assign kern s = Ok s.
Proof. intros L. unfold assign. destruct s as [|a [|b s]]; cbn [length] in *; [rewrite <- L; reflexivity|rewrite <- L; reflexivity|rewrite <- L, Nat.eqb_refl; reflexivity]. Qed.
Lemma integrate_ok acq hmc : forall ys i sum kern, 
  (forall j y, nth_error ys j = Some y -> exists s, nth_error hmc (i + j) = Some s /\ length s = length kern /\ acq s = Ok y) ->
  integrate acq hmc (length ys) i sum kern = (match ys with [] => kern | _ => nth (i + length ys - 1) hmc kern end, Ok (adds ys sum)).
Proof.
  induction ys as [|y ys IH]; intros i sum kern H; [reflexivity|]. cbn [length integrate].
  destruct (H 0%nat y eq_refl) as (s & E & L & A). rewrite Nat.add_0_r in E. rewrite E, assign_same, A by exact L.
  rewrite IH.
  - f_equal. destruct ys as [|y' ys]; [|].
    + cbn [length]. replace (i + 1 - 1)%nat with i by lia. symmetry. now apply nth_error_nth.
    + cbn [length]. replace (S i + S (length ys) - 1)%nat with (i + S (S (length ys)) - 1)%nat by lia. apply nth_indep.
      destruct (H (S (length ys)) (nth (length ys) (y' :: ys) [])) as (s' & E' & _).
      { cbn [nth_error]. apply nth_error_nth'. cbn. lia. }
      assert (nth_error hmc (i + S (length ys)) <> None) as N by congruence. apply nth_error_Some in N. lia.
  - intros j y' HJ. destruct (H (S j) y' HJ) as (s' & E' & L' & A'). exists s'. replace (S i + j)%nat with (i + S j)%nat by lia. split; [exact E'|]. split; [congruence|exact A'].
Qed.
Lemma nth_add a b k : length a = length b -> nth k (add a b) 0 = nth k a 0 + nth k b 0.
Proof.
  revert b k. induction a as [|x a IH]; intros [|y b] k L; try discriminate L.
  - destruct k; cbn; ring.
  - destruct k; cbn; [reflexivity|]. apply IH. now injection L.
Qed.
Lemma add_length a b : length a = length b -> length (add a b) = length a.
Proof. intros L. unfold add. rewrite map_length, combine_length, L. apply Nat.min_id. Qed.
Lemma adds_some w : forall ys t, length t = w -> List.Forall (fun y => length y = w) ys ->
  exists t', adds ys (Some t) = Some t' /\ length t' = w /\ forall k, nth k t' 0 = nth k t 0 + total (map (fun y => nth k y 0) ys).
Proof.
  induction ys as [|y ys IH]; intros t LT F.
  - exists t. split; [reflexivity|]. split; [exact LT|]. intros k. cbn. ring.
  - inversion F as [|? ? LY F']; subst. cbn [adds fold_left]. destruct (IH (add t y)) as (t' & E & L & N); [rewrite add_length; lia|exact F'|].
    exists t'. split; [exact E|]. split; [exact L|]. intros k. rewrite N, nth_add by lia. cbn [map total fold_right]. unfold total. ring.
Qed.
Lemma adds_total w : forall ys, ys <> [] -> List.Forall (fun y => length y = w) ys ->
  exists t, adds ys None = Some t /\ length t = w /\ forall k, nth k t 0 = total (map (fun y => nth k y 0) ys).
Proof.
  intros [|y ys] N F; [congruence|]. inversion F as [|? ? LY F']; subst. destruct (adds_some (length y) ys y eq_refl F') as (t & E & L & H).
  exists t. split; [exact E|]. split; [exact L|]. intros k. rewrite H. reflexivity.
Qed.
Lemma nth_map_div l k n : nth k (map (fun a => a / n) l) 0 = nth k l 0 / n.
Proof. replace 0 with (0 / n) at 1 by (unfold Rdiv; ring). apply (map_nth (fun a => a / n)). Qed.
Lemma integrated_ok acq hmc kern ys w : ys <> [] ->
  (forall j y, nth_error ys j = Some y -> exists s, nth_error hmc j = Some s /\ length s = length kern /\ acq s = Ok y /\ length y = w) ->
  exists out, integrated acq (Some (length ys)) hmc kern = (nth (length ys - 1) hmc kern, Ok out) /\ length out = w /\
    forall k, nth k out 0 = total (map (fun y => nth k y 0) ys) / INR (length ys).
Proof.
  intros N H. unfold integrated. rewrite (integrate_ok acq hmc ys 0 None kern).
  2: { intros j y E. destruct (H j y E) as (s & A & B & C & _). exists s. auto. }
  destruct (adds_total w ys N) as (t & E & L & T).
  { apply Forall_forall. intros y I. apply In_nth_error in I as (j & J). destruct (H j y J) as (s & _ & _ & _ & W). exact W. }
  rewrite E. exists (map (fun a => a / INR (length ys)) t). split; [destruct ys; [congruence|reflexivity]|]. rewrite map_length. split; [exact L|].
  intros k. rewrite nth_map_div, T. reflexivity.
Qed.
Lemma total_derive (Fs : list (R -> R)) (gs : list R) t : Forall2 (fun F g => is_derive F t g) Fs gs ->
  is_derive (fun x => total (map (fun F => F x) Fs)) t (total gs).
Proof.
  induction 1 as [|F g Fs gs D _ IH]; cbn [map total fold_right].
  - apply @is_derive_const.
  - apply @is_derive_plus; assumption.
Qed.
