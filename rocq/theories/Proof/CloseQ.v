(** The files of an engine that was not closed. *)
From Coq Require Import String List ZArith QArith Qcanon Bool Lia.
From Verif.Model Require Import Py Optim Call Config Options Output Files Outputs Close.
From Verif.Spec Require Import CloseSpec.
From Verif.Proof Require Import Num OutputP CloseP.
Import ListNotations.
Local Open Scope nat_scope.

Lemma combine_map {A B} (f : A -> B) (l : list A) : combine l (map f l) = map (fun a => (a, f a)) l.
Proof. induction l as [|a l IH]; cbn; [reflexivity | now rewrite IH]. Qed.
Lemma no_lines {A B} (ms : list A) : forall k, map (fun _ => @nil B) ms = map (fun _ => []) (combine (seq k (length ms)) ms).
Proof. induction ms as [|m ms IH]; intros k; cbn; [reflexivity|]. f_equal. apply IH. Qed.
Lemma nth_combine {A B} (f : nat * A -> list B) (ms : list A) : forall i k m, nth_error ms i = Some m -> nth i (map f (combine (seq k (length ms)) ms)) [] = f (k + i, m).
Proof.
  induction ms as [|a ms IH]; intros i k m N; [now destruct i|]. destruct i as [|i]; cbn in *; [injection N as ->; now rewrite Nat.add_0_r|]. rewrite (IH i (S k) m N). f_equal. f_equal. lia.
Qed.

Section P.
Variables (report : string -> list entry -> option exn) (ms : list made).
Notation step := (step report ms).
Notation uses := (uses report ms).
Definition filed (fired : list (nat * list entry * option exn)) : list (list log_line) := map (fun p => written (snd p) (fst p) fired []) (combine (seq 0 (length ms)) ms).
Lemma write_filed fs fired : write_all ms fs (filed fired) = filed (fired ++ fs).
Proof.
  unfold write_all, filed. rewrite combine_map, map_map. apply map_ext. intros [i m]. cbn [fst snd]. unfold written. now rewrite fold_left_app.
Qed.
Lemma open_uses us : ~ In Close us -> forall l, lv_closed l = false -> lv_logs l = filed (o_fired (lv_engine l)) ->
  lv_engine (fst (uses l us)) = append_all (save_of report ms) (lv_engine l) (entries us) /\ lv_logs (fst (uses l us)) = filed (o_fired (lv_engine (fst (uses l us)))).
Proof.
  induction us as [|u us IH]; intros Q l C W; [auto|]. rewrite uses_cons. cbn [fst]. destruct u as [en|]; [|exfalso; apply Q; left; reflexivity].
  assert (Q' : ~ In Close us) by (intros H; apply Q; now right). cbn [Close.step]. rewrite C. cbn [entries append_all fold_left].
  destruct (append_iter (save_of report ms) (lv_engine l) en) as [o e] eqn:A. cbn [fst].
  destruct (IH Q' (mk_live o false (write_all ms (skipn (length (o_fired (lv_engine l))) (o_fired o)) (lv_logs l)))) as [I1 I2]; [reflexivity| |split; [exact I1 | exact I2]].
  cbn [lv_logs lv_engine]. rewrite W, write_filed. f_equal. unfold append_iter in A. destruct (savers _ _ _ _ _ _) as [[cs fs] e0]. injection A as <- _. cbn [o_fired]. now rewrite skipn_past.
Qed.
Theorem before_close o us : ~ In Close us -> o_fired o = [] ->
  lv_engine (fst (uses (opened ms o) us)) = append_all (save_of report ms) o (entries us) /\
  forall i, i < length ms -> nth i (lv_logs (fst (uses (opened ms o) us))) [] = log_of ms (append_all (save_of report ms) o (entries us)) i.
Proof.
  intros Q F. destruct (open_uses us Q (opened ms o)) as [A B]; [reflexivity|cbn; rewrite F; unfold filed; apply no_lines|]. split; [exact A|]. intros i Hi. rewrite B, A. cbn [lv_engine opened].
  unfold log_of. destruct (nth_error ms i) as [m|] eqn:N; [|apply nth_error_None in N; lia]. unfold filed. now rewrite (nth_combine _ _ i 0 m N).
Qed.
End P.
