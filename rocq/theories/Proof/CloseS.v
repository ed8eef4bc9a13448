(** The savers before a closed log. *)
From Coq Require Import String List ZArith QArith Qcanon Bool Lia.
From Verif.Model Require Import Py Optim Call Config Options Output Files Outputs Close.
From Verif.Spec Require Import CloseSpec.
From Verif.Proof Require Import Num OutputP CloseP CloseR.
Import ListNotations.
Local Open Scope nat_scope.

Lemma savers_above save final data : forall ivs clock i f, In f (snd (fst (savers save final data ivs clock i))) -> i <= fst (fst f).
Proof.
  induction ivs as [|iv ivs IH]; intros [|c clock] i f; cbn [savers]; try (intros []). specialize (IH clock (S i) f).
  destruct (qceq _ q0).
  - destruct (save i data) as [e|]; [intros [<-|[]]; cbn; lia|]. destruct (savers save final data ivs clock (S i)) as [[cs fs] e]. cbn [fst snd] in *. intros [<-|H]; [cbn; lia|]. specialize (IH H). lia.
  - destruct (savers save final data ivs clock (S i)) as [[cs fs] e]. cbn [fst snd] in *. intros H. specialize (IH H). lia.
Qed.
Lemma calls_none k fs : (forall f, In f fs -> k <= fst (fst f)) -> calls_below k fs = [].
Proof.
  unfold calls_below. induction fs as [|f fs IH]; intros H; [reflexivity|]. cbn [filter]. assert (G : k <= fst (fst f)) by (apply H; now left). apply Nat.ltb_ge in G. rewrite G. apply IH. intros x Hx. apply H. now right.
Qed.
Lemma savers_prefix f g final data : forall ivs c1 c2 k i, length c1 = length ivs -> length c2 = length ivs -> firstn k c1 = firstn k c2 -> (forall j, j < i + k -> f j data = g j data) ->
  match savers f final data ivs c1 i, savers g final data ivs c2 i with (cs1, fs1, _), (cs2, fs2, _) => firstn k cs1 = firstn k cs2 /\ calls_below (i + k) fs1 = calls_below (i + k) fs2 end.
Proof.
  induction ivs as [|iv ivs IH]; intros c1 c2 k i L1 L2 P Q; destruct k as [|k].
  - rewrite Nat.add_0_r. pose proof (savers_above f final data [] c1 i) as A1. pose proof (savers_above g final data [] c2 i) as A2.
    destruct (savers f final data [] c1 i) as [[cs1 fs1] e1], (savers g final data [] c2 i) as [[cs2 fs2] e2]. cbn [fst snd] in *. split; [reflexivity|]. now rewrite !calls_none.
  - destruct c1, c2; try discriminate. cbn. auto.
  - rewrite Nat.add_0_r. pose proof (savers_above f final data (iv :: ivs) c1 i) as A1. pose proof (savers_above g final data (iv :: ivs) c2 i) as A2.
    destruct (savers f final data (iv :: ivs) c1 i) as [[cs1 fs1] e1], (savers g final data (iv :: ivs) c2 i) as [[cs2 fs2] e2]. cbn [fst snd] in *. split; [reflexivity|]. now rewrite !calls_none.
  - destruct c1 as [|a c1], c2 as [|b c2]; try discriminate. cbn [firstn] in P. injection P as <- P. injection L1 as L1. injection L2 as L2. cbn [savers].
    assert (Q' : forall j, j < S i + k -> f j data = g j data) by (intros j Hj; apply Q; lia). specialize (IH c1 c2 k (S i) L1 L2 P Q'). rewrite <- (Q i) by lia.
    replace (i + S k) with (S i + k) by lia.
    destruct (savers f final data ivs c1 (S i)) as [[cs1 fs1] e1], (savers g final data ivs c2 (S i)) as [[cs2 fs2] e2]. destruct IH as [I1 I2]. destruct (qceq _ q0).
    + destruct (f i data) as [e|].
      * cbn [firstn]. rewrite P. auto.
      * cbn [firstn]. rewrite I1. split; [reflexivity|]. unfold calls_below in *. cbn [filter fst]. now rewrite I2.
    + cbn [firstn]. rewrite I1. auto.
Qed.

Section P.
Variables (report : string -> list entry -> option exn) (ms : list made) (k : nat).
Hypothesis quiet : forall j m, j < k -> nth_error ms j = Some m -> ~ has_file m.
Notation step := (step report ms).
Notation uses := (uses report ms).
Lemma save_quiet logs j data : j < k -> save_closed report ms logs j data = save_of report ms j data.
Proof.
  intros J. unfold save_closed, save_of. destruct (nth_error ms j) as [m|] eqn:N; [|reflexivity]. destruct (md_kind m) eqn:K; [reflexivity|].
  pose proof (quiet j m J N) as H. unfold has_file in H. unfold log_closed, log_save. destruct (md_open m); [exfalso; auto | reflexivity].
Qed.
Definition alike (a b : engine) : Prop := o_intervals a = o_intervals b /\ o_data a = o_data b /\ length (o_clock a) = length (o_intervals a) /\ length (o_clock b) = length (o_intervals b) /\
  firstn k (o_clock a) = firstn k (o_clock b) /\ calls_below k (o_fired a) = calls_below k (o_fired b).
Definition saves (l : live) : nat -> list entry -> option exn := if lv_closed l then save_closed report ms (lv_logs l) else save_of report ms.
Lemma step_engine l en : lv_engine (fst (step l (Append en))) = fst (append_iter (saves l) (lv_engine l) en).
Proof. cbn [Close.step]. unfold saves. destruct (lv_closed l); now destruct (append_iter _ _ en). Qed.
Lemma saves_agree l l' j data : j < k -> saves l j data = saves l' j data.
Proof. intros J. unfold saves. destruct (lv_closed l), (lv_closed l'); rewrite ?save_quiet by exact J; reflexivity. Qed.
Lemma alike_step l l' u : alike (lv_engine l) (lv_engine l') -> alike (lv_engine (fst (step l u))) (lv_engine (fst (step l' u))).
Proof.
  intros A. destruct u as [en|]; [|exact A]. rewrite !step_engine. destruct A as (V & D & L1 & L2 & P & F). unfold append_iter. rewrite <- V, <- D in *.
  pose proof (savers_prefix (saves l) (saves l') (en_final en) (o_data (lv_engine l) ++ [en]) _ _ _ k 0 L1 L2 P (fun j J => saves_agree l l' j _ J)) as W.
  pose proof (savers_length (saves l) (en_final en) (o_data (lv_engine l) ++ [en]) _ _ 0 L1) as W1.
  pose proof (savers_length (saves l') (en_final en) (o_data (lv_engine l) ++ [en]) _ _ 0 L2) as W2.
  destruct (savers (saves l) _ _ _ _ _) as [[cs1 fs1] e1], (savers (saves l') _ _ _ _ _) as [[cs2 fs2] e2]. destruct W as [W3 W4]. cbn [fst snd Nat.add] in *.
  repeat split; cbn [o_intervals o_data o_clock o_fired]; try assumption. unfold calls_below in *. rewrite !filter_app, F, W4. reflexivity.
Qed.
Lemma alike_uses us : forall l l', alike (lv_engine l) (lv_engine l') -> alike (lv_engine (fst (uses l us))) (lv_engine (fst (uses l' us))).
Proof. induction us as [|u us IH]; intros l l' A; [exact A|]. rewrite !uses_cons. cbn [fst]. apply IH. now apply alike_step. Qed.
Lemma uses_app us us' : forall l, fst (uses l (us ++ us')) = fst (uses (fst (uses l us)) us').
Proof. induction us as [|u us IH]; intros l; [reflexivity|]. cbn [app]. rewrite !uses_cons. cbn [fst]. apply IH. Qed.
Theorem earlier_savers o us us' : o_clock o = o_intervals o ->
  calls_below k (o_fired (lv_engine (fst (uses (opened ms o) (us ++ Close :: us'))))) = calls_below k (o_fired (lv_engine (fst (uses (opened ms o) (us ++ us'))))).
Proof.
  intros K. rewrite !uses_app, uses_cons. cbn [fst]. apply alike_uses. cbn [Close.step fst lv_engine].
  assert (L : length (o_clock (lv_engine (fst (uses (opened ms o) us)))) = length (o_intervals (lv_engine (fst (uses (opened ms o) us))))) by (apply uses_length; cbn; now rewrite K).
  repeat split; exact L.
Qed.
End P.
