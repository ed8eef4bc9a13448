(** A closed log with any whole interval. *)
From Coq Require Import String List ZArith QArith Qcanon Bool Lia.
From Verif.Model Require Import Py Optim Call Config Options Output Files Outputs Close.
From Verif.Spec Require Import CloseSpec.
From Verif.Proof Require Import Num OutputP CloseP.
Import ListNotations.
Local Open Scope nat_scope.

Lemma savers_length save final data ivs clock i : length clock = length ivs -> length (fst (fst (savers save final data ivs clock i))) = length ivs.
Proof. intros L. pose proof (savers_raised save final data ivs clock i 0 [] ValueError L) as W. destruct (savers save final data ivs clock i) as [[cs fs] e]. apply W. Qed.
(** the clock of a saver with the interval [n]; while the saver raises, a call that does not raise takes one off it *)
Lemma savers_count save final data n : (1 <= n)%Z -> forall ivs clock k i c, length clock = length ivs -> nth_error ivs k = Some (z2q n) -> nth_error clock k = Some (z2q c) -> (0 <= c <= n)%Z ->
  match savers save final data ivs clock i with (cs, fs, e) => exists c', nth_error cs k = Some (z2q c') /\ (0 <= c' <= n)%Z /\
    (save (i + k) data <> None -> e = None -> (1 <= c')%Z /\ c' = if final then c else (c - 1)%Z) end.
Proof.
  intros Hn. induction ivs as [|iv ivs IH]; intros [|c0 clock] k i c L V N C; try discriminate; [now destruct k|]. cbn [savers]. injection L as L. destruct k as [|k].
  - cbn [nth_error] in V, N. injection V as ->. injection N as ->. rewrite Nat.add_0_r.
    pose (t := if final then c else if (0 <? c)%Z then (c - 1)%Z else c).
    assert (T : (if final then if qceq (z2q c) (z2q (-1)) then q0 else z2q c else if qclt q0 (z2q c) then (z2q c + z2q (-1))%Qc else z2q c) = z2q t).
    { unfold t. rewrite q0_z, qceq_z, qclt_z, <- z2q_plus. destruct final; [|destruct (0 <? c)%Z; reflexivity]. replace (c =? -1)%Z with false by (symmetry; apply Z.eqb_neq; lia). reflexivity. }
    assert (B : (0 <= t <= n)%Z) by (unfold t; destruct final; [lia|]; destruct (Z.ltb_spec 0 c); lia).
    rewrite T, q0_z, qceq_z. destruct (Z.eqb_spec t 0) as [Z0|Z0].
    + destruct (save i data) as [e0|].
      * exists t. split; [reflexivity|]. split; [exact B|]. discriminate.
      * destruct (savers save final data ivs clock (S i)) as [[cs fs] e]. exists n. split; [reflexivity|]. split; [lia|]. intros H. now destruct H.
    + destruct (savers save final data ivs clock (S i)) as [[cs fs] e]. exists t. split; [reflexivity|]. split; [exact B|]. intros _ _. split; [lia|]. unfold t in *. destruct final; [reflexivity|]. destruct (Z.ltb_spec 0 c); lia.
  - cbn [nth_error] in V, N. specialize (IH clock k (S i) c L V N C). replace (i + S k) with (S i + k) by lia.
    destruct (savers save final data ivs clock (S i)) as [[cs fs] e]. destruct (qceq _ q0); [|exact IH]. destruct (save i data) as [e0|]; [|exact IH].
    exists c. split; [exact N|]. split; [exact C|]. discriminate.
Qed.

Section P.
Variables (report : string -> list entry -> option exn) (ms : list made).
Notation step := (step report ms).
Notation uses := (uses report ms).
Definition counts n i (c : Z) (l : live) : Prop := length (o_clock (lv_engine l)) = length (o_intervals (lv_engine l)) /\ nth_error (o_intervals (lv_engine l)) i = Some (z2q n) /\
  nth_error (o_clock (lv_engine l)) i = Some (z2q c) /\ (0 <= c <= n)%Z.
Lemma counts_step n i m l u c : (1 <= n)%Z -> nth_error ms i = Some m -> has_file m -> counts n i c l -> exists c', counts n i c' (fst (step l u)) /\
  (lv_closed l = true -> snd (step l u) = None -> c' = match u with Append en => if en_final en then c else (c - 1)%Z | Close => c end /\ (u <> Close -> (1 <= c')%Z)).
Proof.
  intros Hn M F (L & V & N & C). destruct u as [en|]; cbn [Close.step]; [|exists c; split; [repeat split; assumption || lia|]; intros _ _; split; [reflexivity|]; intros H; now destruct H].
  unfold append_iter. destruct (lv_closed l).
  - pose proof (savers_count (save_closed report ms (lv_logs l)) (en_final en) (o_data (lv_engine l) ++ [en]) n Hn _ _ i 0 c L V N C) as W.
    pose proof (savers_length (save_closed report ms (lv_logs l)) (en_final en) (o_data (lv_engine l) ++ [en]) _ _ 0 L) as W0.
    destruct (savers _ _ _ _ _ _) as [[cs fs] e]. destruct W as (c' & W1 & W2 & W3). exists c'. cbn [fst snd] in *. split; [repeat split; (exact W0 || exact V || exact W1 || lia)|].
    intros _ E0. destruct (W3 (closed_raises report ms _ i m _ M F) E0) as [A B]. split; [exact B|]. intros _. exact A.
  - pose proof (savers_count (save_of report ms) (en_final en) (o_data (lv_engine l) ++ [en]) n Hn _ _ i 0 c L V N C) as W.
    pose proof (savers_length (save_of report ms) (en_final en) (o_data (lv_engine l) ++ [en]) _ _ 0 L) as W0.
    destruct (savers _ _ _ _ _ _) as [[cs fs] e]. destruct W as (c' & W1 & W2 & W3). exists c'. cbn [fst snd] in *. split; [repeat split; (exact W0 || exact V || exact W1 || lia)|]. discriminate.
Qed.
Lemma counts_uses n i m us : (1 <= n)%Z -> nth_error ms i = Some m -> has_file m -> forall l c, counts n i c l -> exists c', counts n i c' (fst (uses l us)).
Proof.
  intros Hn M F. induction us as [|u us IH]; intros l c K; [exists c; exact K|]. rewrite uses_cons. cbn [fst]. destruct (counts_step n i m l u c Hn M F K) as (c1 & K1 & _). exact (IH _ _ K1).
Qed.
Lemma counts_down n i m us : (1 <= n)%Z -> nth_error ms i = Some m -> has_file m -> forall l c, lv_closed l = true -> counts n i c l -> Forall (eq None) (snd (uses l us)) ->
  (entries us <> [] -> (1 <= c)%Z) /\ (Z.of_nat (ordinary us) <= Z.max 0 (c - 1))%Z.
Proof.
  intros Hn M F. induction us as [|u us IH]; intros l c Cl K A; [split; [intros H; now destruct H|cbn; lia]|]. rewrite uses_cons in A. cbn [snd] in A. inversion A as [|? ? A1 A2]; subst.
  destruct (counts_step n i m l u c Hn M F K) as (c1 & K1 & D). destruct (D Cl (eq_sym A1)) as [D1 D2]. destruct (step_closed report ms l u Cl) as [Cl1 _].
  destruct (IH _ c1 Cl1 K1 A2) as [I1 I2]. destruct u as [en|]; cbn [entries ordinary].
  - assert (G : (1 <= c1)%Z) by (apply D2; discriminate). destruct (en_final en); subst c1; split; try (intros _; lia); lia.
  - subst c1. split; assumption.
Qed.
Theorem due_in_time n i m o us us' : (1 <= n)%Z -> nth_error ms i = Some m -> has_file m -> o_clock o = o_intervals o -> nth_error (o_intervals o) i = Some (z2q n) ->
  let l := fst (uses (opened ms o) us) in lv_closed l = true -> (n <= Z.of_nat (ordinary us'))%Z -> exists e, In (Some e) (snd (uses l us')).
Proof.
  intros Hn M F K V l Cl Ln. assert (K0 : counts n i n (opened ms o)) by (repeat split; cbn; rewrite ?K; (exact V || reflexivity || lia)).
  destruct (counts_uses n i m us Hn M F _ _ K0) as (c & K1). fold l in K1.
  assert (D : Forall (eq None) (snd (uses l us')) \/ exists e, In (Some e) (snd (uses l us'))).
  { generalize (snd (uses l us')). induction l0 as [|[e|] l0 [IH|[e' IH]]]; [left; constructor|right; exists e; now left|right; exists e; now left|left; now constructor|right; exists e'; now right]. }
  destruct D as [D|D]; [|exact D]. exfalso. destruct (counts_down n i m us' Hn M F l c Cl K1 D) as [_ B]. destruct K1 as (_ & _ & _ & C). lia.
Qed.
End P.
