(** Closing an output engine. *)
From Coq Require Import String List ZArith QArith Qcanon Bool Lia.
From Verif.Model Require Import Py Optim Call Config Options Output Files Outputs Close.
From Verif.Spec Require Import CloseSpec.
From Verif.Proof Require Import Num OutputP.
Import ListNotations.
Local Open Scope nat_scope.

Lemma savers_ext (f g : nat -> list entry -> option exn) final data : (forall i, f i data = g i data) -> forall ivs clock i,
  savers f final data ivs clock i = savers g final data ivs clock i.
Proof.
  intros Q. induction ivs as [|iv ivs IH]; intros [|c clock] i; cbn [savers]; try reflexivity. rewrite Q. rewrite IH. reflexivity.
Qed.
Lemma tick_zero (final : bool) : (if final then if qceq q0 (z2q (-1)) then q0 else q0 else if qclt q0 q0 then (q0 + z2q (-1))%Qc else q0) = q0.
Proof. destruct final; reflexivity. Qed.
Lemma q0_eq : qceq q0 q0 = true.
Proof. reflexivity. Qed.

(** a saver that is due and raises *)
Lemma savers_stuck save final data : forall ivs clock k i, length clock = length ivs -> nth_error clock k = Some q0 -> save (i + k) data <> None ->
  match savers save final data ivs clock i with (cs, fs, e) => e <> None /\ nth_error cs k = Some q0 /\ length cs = length ivs /\ forall f, In f fs -> fst (fst f) <= i + k end.
Proof.
  induction ivs as [|iv ivs IH]; intros [|c clock] k i L N R; try discriminate; [now destruct k|]. cbn [savers]. destruct k as [|k].
  - injection N as ->. rewrite tick_zero, q0_eq. rewrite Nat.add_0_r in *. destruct (save i data) as [e|] eqn:S0; [|congruence].
    split; [discriminate|]. split; [reflexivity|]. split; [exact L|]. intros f [<-|[]]. cbn. lia.
  - cbn [nth_error] in N. injection L as L. replace (i + S k) with (S i + k) in R by lia. specialize (IH clock k (S i) L N R).
    destruct (savers save final data ivs clock (S i)) as [[cs fs] e] eqn:K. destruct IH as (I1 & I2 & I3 & I4).
    destruct (qceq _ q0).
    + destruct (save i data) as [e0|].
      * split; [discriminate|]. split; [exact N|]. split; [cbn; now rewrite L|]. intros f [<-|[]]. cbn. lia.
      * split; [exact I1|]. split; [exact I2|]. split; [cbn; now rewrite I3|]. intros f [<-|H]; [cbn; lia|]. specialize (I4 _ H). lia.
    + split; [exact I1|]. split; [exact I2|]. split; [cbn; now rewrite I3|]. intros f H. specialize (I4 _ H). lia.
Qed.
(** the saver that raised is still due *)
Lemma savers_raised save final data : forall ivs clock i j d e0, length clock = length ivs ->
  match savers save final data ivs clock i with (cs, fs, e) => length cs = length ivs /\ (In (j, d, Some e0) fs -> i <= j /\ nth_error cs (j - i) = Some q0) end.
Proof.
  induction ivs as [|iv ivs IH]; intros [|c clock] i j d e0 L; try discriminate; [split; [reflexivity|intros []]|]. cbn [savers]. injection L as L.
  specialize (IH clock (S i) j d e0 L). destruct (savers save final data ivs clock (S i)) as [[cs fs] e] eqn:K. destruct IH as [I1 I2].
  assert (B : forall a, In (j, d, Some e0) fs -> i <= j /\ nth_error (a :: cs) (j - i) = Some q0).
  { intros a H. destruct (I2 H) as [G N]. split; [lia|]. replace (j - i) with (S (j - S i)) by lia. exact N. }
  destruct (qceq _ q0) eqn:Z.
  - apply qceq_spec in Z. destruct (save i data) as [e1|].
    + split; [cbn; now rewrite L|]. intros [H|[]]. injection H as -> _ _. split; [lia|]. rewrite Nat.sub_diag. cbn [nth_error]. now rewrite Z.
    + split; [cbn; now rewrite I1|]. intros [H|H]; [discriminate|]. now apply B.
  - split; [cbn; now rewrite I1|]. intros H. now apply B.
Qed.
(** a saver with interval one is due at every call that is not final *)
Lemma savers_one save final data : forall ivs clock k i c, length clock = length ivs -> nth_error ivs k = Some (z2q 1) -> nth_error clock k = Some c -> c = q0 \/ c = z2q 1 ->
  match savers save final data ivs clock i with (cs, fs, e) => length cs = length ivs /\ (exists c', nth_error cs k = Some c' /\ (c' = q0 \/ c' = z2q 1)) /\
    (final = false -> save (i + k) data <> None -> e <> None) end.
Proof.
  induction ivs as [|iv ivs IH]; intros [|c0 clock] k i c L V N C; try discriminate; [now destruct k|]. cbn [savers]. injection L as L. destruct k as [|k].
  - cbn [nth_error] in V, N. injection V as ->. injection N as ->. rewrite Nat.add_0_r.
    assert (T : final = false -> (if qclt q0 c then (c + z2q (-1))%Qc else c) = q0) by (intros _; destruct C as [-> | ->]; apply Qc_is_canon; reflexivity).
    assert (U : (if qceq c (z2q (-1)) then q0 else c) = c) by (destruct C as [-> | ->]; reflexivity).
    assert (LS : forall j, length (fst (fst (savers save final data ivs clock j))) = length ivs).
    { intros j. pose proof (savers_raised save final data ivs clock j 0 [] ValueError L) as W. destruct (savers save final data ivs clock j) as [[cs fs] e]. apply W. }
    specialize (LS (S i)). destruct final.
    + rewrite U. destruct (qceq c q0) eqn:Z.
      * destruct (save i data) as [e0|].
        { split; [cbn; now rewrite L|]. split; [exists c; auto | discriminate]. }
        { destruct (savers save true data ivs clock (S i)) as [[cs fs] e]. cbn [fst] in LS. split; [cbn; now rewrite LS|]. split; [exists (z2q 1); auto | discriminate]. }
      * destruct (savers save true data ivs clock (S i)) as [[cs fs] e]. cbn [fst] in LS. split; [cbn; now rewrite LS|]. split; [exists c; auto | discriminate].
    + rewrite (T eq_refl), q0_eq. destruct (save i data) as [e0|].
      * split; [cbn; now rewrite L|]. split; [exists q0; auto | discriminate].
      * destruct (savers save false data ivs clock (S i)) as [[cs fs] e]. cbn [fst] in LS. split; [cbn; now rewrite LS|]. split; [exists (z2q 1); auto|]. intros _ H. now destruct H.
  - cbn [nth_error] in V, N. specialize (IH clock k (S i) c L V N C). replace (i + S k) with (S i + k) by lia.
    destruct (savers save final data ivs clock (S i)) as [[cs fs] e]. destruct IH as (I1 & I2 & I3). destruct (qceq _ q0).
    + destruct (save i data) as [e0|].
      * split; [cbn; now rewrite L|]. split; [exists c; auto | discriminate].
      * split; [cbn; now rewrite I1|]. split; [exact I2 | exact I3].
    + split; [cbn; now rewrite I1|]. split; [exact I2 | exact I3].
Qed.

Section P.
Variables (report : string -> list entry -> option exn) (ms : list made).
Notation step := (step report ms).
Notation uses := (uses report ms).

Lemma uses_cons l u us : uses l (u :: us) = (fst (uses (fst (step l u)) us), snd (step l u) :: snd (uses (fst (step l u)) us)).
Proof. cbn [Close.uses]. destruct (step l u) as [l1 e]. cbn [fst snd]. now destruct (uses l1 us). Qed.

Lemma step_data l u : o_data (lv_engine (fst (step l u))) = o_data (lv_engine l) ++ entries [u].
Proof.
  destruct u as [en|]; cbn [Close.step entries]; [|now rewrite app_nil_r]. destruct (lv_closed l).
  - pose proof (append_data (save_closed report ms (lv_logs l)) (lv_engine l) en) as D. destruct (append_iter _ _ en) as [o e]. exact D.
  - pose proof (append_data (save_of report ms) (lv_engine l) en) as D. destruct (append_iter _ _ en) as [o e]. exact D.
Qed.
Theorem uses_data us : forall l, o_data (lv_engine (fst (uses l us))) = o_data (lv_engine l) ++ entries us.
Proof.
  induction us as [|u us IH]; intros l; [cbn; now rewrite app_nil_r|]. rewrite uses_cons. cbn [fst]. rewrite IH, step_data, <- app_assoc. f_equal. destruct u; reflexivity.
Qed.

Lemma step_closed l u : lv_closed l = true -> lv_closed (fst (step l u)) = true /\ lv_logs (fst (step l u)) = lv_logs l.
Proof. intros C. destruct u as [en|]; cbn [Close.step]; [|auto]. rewrite C. now destruct (append_iter _ _ en). Qed.
Theorem uses_closed us : forall l, lv_closed l = true -> lv_closed (fst (uses l us)) = true /\ lv_logs (fst (uses l us)) = lv_logs l.
Proof.
  induction us as [|u us IH]; intros l C; [auto|]. rewrite uses_cons. cbn [fst]. destruct (step_closed l u C) as [A B]. destruct (IH _ A) as [D F]. split; [exact D|]. now rewrite F.
Qed.

(** nothing to close *)
Lemma same_save logs i data : (forall m, In m ms -> ~ has_file m) -> save_closed report ms logs i data = save_of report ms i data.
Proof.
  intros Q. unfold save_closed, save_of. destruct (nth_error ms i) as [m|] eqn:N; [|reflexivity]. destruct (md_kind m) eqn:K; [reflexivity|].
  apply nth_error_In in N. specialize (Q _ N). unfold has_file in Q. unfold log_closed, log_save. destruct (md_open m); [exfalso; auto | reflexivity].
Qed.
Lemma step_same l l' u : (forall m, In m ms -> ~ has_file m) -> lv_engine l = lv_engine l' ->
  lv_engine (fst (step l u)) = lv_engine (fst (step l' u)) /\ snd (step l u) = snd (step l' u).
Proof.
  intros Q S0. destruct u as [en|]; cbn [Close.step]; [|auto].
  assert (A : forall logs o, append_iter (save_closed report ms logs) o en = append_iter (save_of report ms) o en).
  { intros logs o. unfold append_iter. rewrite (savers_ext _ (save_of report ms)); [reflexivity|]. intros i. now apply same_save. }
  rewrite !A, S0. destruct (append_iter (save_of report ms) (lv_engine l') en) as [o e]. destruct (lv_closed l), (lv_closed l'); auto.
Qed.
Lemma uses_same us : (forall m, In m ms -> ~ has_file m) -> forall l l', lv_engine l = lv_engine l' ->
  lv_engine (fst (uses l us)) = lv_engine (fst (uses l' us)) /\ snd (uses l us) = snd (uses l' us).
Proof.
  intros Q. induction us as [|u us IH]; intros l l' S0; [auto|]. rewrite !uses_cons. cbn [fst snd]. destruct (step_same l l' u Q S0) as [A B]. destruct (IH _ _ A) as [C D]. split; [exact C|]. now rewrite B, D.
Qed.
Theorem nothing_to_close l us : (forall m, In m ms -> ~ has_file m) ->
  lv_engine (fst (uses l (Close :: us))) = lv_engine (fst (uses l us)) /\ snd (uses l (Close :: us)) = None :: snd (uses l us).
Proof.
  intros Q. rewrite uses_cons. cbn [fst snd]. destruct (uses_same us Q (fst (step l Close)) l) as [A B]; [reflexivity|]. split; [exact A|]. now rewrite B.
Qed.

(** after close *)
Lemma closed_raises logs i m data : nth_error ms i = Some m -> has_file m -> save_closed report ms logs i data <> None.
Proof.
  intros N [K O]. unfold save_closed. rewrite N, K. unfold log_closed. rewrite O. cbn [negb]. destruct (nth i logs []); [discriminate|]. destruct (logger_line data); discriminate.
Qed.
Lemma fired_grows l u : exists fs, o_fired (lv_engine (fst (step l u))) = o_fired (lv_engine l) ++ fs.
Proof.
  destruct u as [en|]; cbn [Close.step]; [|exists []; cbn; now rewrite app_nil_r]. unfold append_iter. destruct (lv_closed l); destruct (savers _ _ _ _ _ _) as [[cs fs] e]; exists fs; reflexivity.
Qed.
Lemma uses_fired us : forall l, exists fs, o_fired (lv_engine (fst (uses l us))) = o_fired (lv_engine l) ++ fs.
Proof.
  induction us as [|u us IH]; intros l; [exists []; cbn; now rewrite app_nil_r|]. rewrite uses_cons. cbn [fst]. destruct (IH (fst (step l u))) as [f2 ->]. destruct (fired_grows l u) as [f1 ->]. exists (f1 ++ f2). now rewrite app_assoc.
Qed.
Lemma skipn_past {A} (h l : list A) : skipn (length h) (h ++ l) = l.
Proof. induction h as [|a h IH]; [reflexivity | exact IH]. Qed.

Definition due i (l : live) : Prop := length (o_clock (lv_engine l)) = length (o_intervals (lv_engine l)) /\ nth_error (o_clock (lv_engine l)) i = Some q0.
Lemma due_step i m l u : nth_error ms i = Some m -> has_file m -> lv_closed l = true -> due i l ->
  due i (fst (step l u)) /\ raised u (snd (step l u)) /\ forall f, In f (since l (fst (step l u))) -> fst (fst f) <= i.
Proof.
  intros N F C [L D]. unfold since. destruct u as [en|]; cbn [Close.step raised fst snd lv_engine]; [|split; [split; assumption|]; split; [exact Logic.I|]; rewrite skipn_all; intros f []].
  rewrite C. unfold append_iter.
  pose proof (savers_stuck (save_closed report ms (lv_logs l)) (en_final en) (o_data (lv_engine l) ++ [en]) _ _ i 0 L D (closed_raises _ i m _ N F)) as W.
  destruct (savers _ _ _ _ _ _) as [[cs fs] e]. destruct W as (W1 & W2 & W3 & W4). cbn [fst snd lv_engine o_fired o_clock o_intervals]. split; [split; assumption|]. split; [exact W1|]. rewrite skipn_past. exact W4.
Qed.
Theorem due_uses i m us : nth_error ms i = Some m -> has_file m -> forall l, lv_closed l = true -> due i l ->
  Forall2 raised us (snd (uses l us)) /\ forall f, In f (since l (fst (uses l us))) -> fst (fst f) <= i.
Proof.
  intros N F. induction us as [|u us IH]; intros l C D; [split; [constructor|]; unfold since; cbn [Close.uses fst]; rewrite skipn_all; intros f []|].
  rewrite uses_cons. cbn [fst snd]. destruct (due_step i m l u N F C D) as (D1 & R & B). destruct (step_closed l u C) as [C1 _]. destruct (IH _ C1 D1) as [I1 I2].
  split; [now constructor|]. unfold since in *. destruct (uses_fired us (fst (step l u))) as [f2 E2]. destruct (fired_grows l u) as [f1 E1]. rewrite E2, skipn_past in I2. rewrite E1, skipn_past in B. rewrite E2, E1, <- app_assoc, skipn_past.
  intros f H. apply in_app_iff in H as [H|H]; auto.
Qed.
Lemma step_length l u : length (o_clock (lv_engine l)) = length (o_intervals (lv_engine l)) -> length (o_clock (lv_engine (fst (step l u)))) = length (o_intervals (lv_engine (fst (step l u)))).
Proof.
  intros L. destruct u as [en|]; cbn [Close.step]; [|exact L]. unfold append_iter. destruct (lv_closed l).
  - pose proof (savers_raised (save_closed report ms (lv_logs l)) (en_final en) (o_data (lv_engine l) ++ [en]) _ _ 0 0 [] ValueError L) as W. destruct (savers _ _ _ _ _ _) as [[cs fs] e]. apply W.
  - pose proof (savers_raised (save_of report ms) (en_final en) (o_data (lv_engine l) ++ [en]) _ _ 0 0 [] ValueError L) as W. destruct (savers _ _ _ _ _ _) as [[cs fs] e]. apply W.
Qed.
Lemma uses_length us : forall l, length (o_clock (lv_engine l)) = length (o_intervals (lv_engine l)) -> length (o_clock (lv_engine (fst (uses l us)))) = length (o_intervals (lv_engine (fst (uses l us)))).
Proof. induction us as [|u us IH]; intros l L; [exact L|]. rewrite uses_cons. cbn [fst]. apply IH. now apply step_length. Qed.
Theorem stuck l en l' e i m d e' us : length (o_clock (lv_engine l)) = length (o_intervals (lv_engine l)) -> lv_closed l = true ->
  step l (Append en) = (l', e) -> In (i, d, Some e') (since l l') -> nth_error ms i = Some m -> has_file m ->
  Forall2 raised us (snd (uses l' us)) /\ forall f, In f (since l' (fst (uses l' us))) -> fst (fst f) <= i.
Proof.
  intros L C S0 I N F. pose proof (step_closed l (Append en) C) as [C' _]. rewrite S0 in C'. cbn [fst] in C'. apply (due_uses i m us N F l' C').
  cbn [Close.step] in S0. rewrite C in S0. unfold append_iter in S0.
  pose proof (savers_raised (save_closed report ms (lv_logs l)) (en_final en) (o_data (lv_engine l) ++ [en]) _ _ 0 i d e' L) as W.
  destruct (savers _ _ _ _ _ _) as [[cs fs] e1]. injection S0 as <- <-. unfold since in I. cbn [lv_engine o_fired] in I. rewrite skipn_past in I. destruct W as [W1 W2]. destruct (W2 I) as [_ W3].
  rewrite Nat.sub_0_r in W3. split; assumption.
Qed.

(** a logger with interval one *)
Definition lively i (l : live) : Prop := length (o_clock (lv_engine l)) = length (o_intervals (lv_engine l)) /\ nth_error (o_intervals (lv_engine l)) i = Some (z2q 1) /\
  exists c, nth_error (o_clock (lv_engine l)) i = Some c /\ (c = q0 \/ c = z2q 1).
Lemma lively_step i l u : lively i l -> lively i (fst (step l u)).
Proof.
  intros (L & V & c & N & C). destruct u as [en|]; cbn [Close.step]; [|exact (conj L (conj V (ex_intro _ c (conj N C))))]. unfold append_iter. destruct (lv_closed l).
  - pose proof (savers_one (save_closed report ms (lv_logs l)) (en_final en) (o_data (lv_engine l) ++ [en]) _ _ i 0 c L V N C) as W. destruct (savers _ _ _ _ _ _) as [[cs fs] e]. destruct W as (W1 & W2 & _). exact (conj W1 (conj V W2)).
  - pose proof (savers_one (save_of report ms) (en_final en) (o_data (lv_engine l) ++ [en]) _ _ i 0 c L V N C) as W. destruct (savers _ _ _ _ _ _) as [[cs fs] e]. destruct W as (W1 & W2 & _). exact (conj W1 (conj V W2)).
Qed.
Lemma lively_uses i us : forall l, lively i l -> lively i (fst (uses l us)).
Proof. induction us as [|u us IH]; intros l L; [exact L|]. rewrite uses_cons. cbn [fst]. apply IH. now apply lively_step. Qed.
Theorem every_iteration i m o us us' en : nth_error ms i = Some m -> has_file m -> o_clock o = o_intervals o -> nth_error (o_intervals o) i = Some (z2q 1) -> en_final en = false ->
  snd (step (fst (uses (opened ms o) (us ++ Close :: us'))) (Append en)) <> None.
Proof.
  intros N F K V Fi. set (l := fst _). assert (L : lively i l).
  { apply lively_uses. split; [cbn; now rewrite K|]. split; [exact V|]. exists (z2q 1). split; [cbn; now rewrite K | auto]. }
  assert (C : lv_closed l = true).
  { unfold l. clear L. clear l. generalize (opened ms o). induction us as [|u us IH]; intros l; cbn [app]; rewrite uses_cons; cbn [fst]; [|apply IH]. now apply uses_closed. }
  destruct L as (L & V1 & c & Nc & Cc). cbn [Close.step]. rewrite C. unfold append_iter.
  pose proof (savers_one (save_closed report ms (lv_logs l)) (en_final en) (o_data (lv_engine l) ++ [en]) _ _ i 0 c L V1 Nc Cc) as W. destruct (savers _ _ _ _ _ _) as [[cs fs] e]. cbn [snd]. apply W; [exact Fi|]. now apply (closed_raises _ i m).
Qed.
End P.
