(** C141: closing the output engine.  Specification: Spec/CloseSpec.v.  Model: Model/Close.v, Model/Output.v, Model/Outputs.v. *)
From Coq Require Import String List ZArith QArith Qcanon Bool Lia.
From Verif.Model Require Import Py Optim Call Config Options Output Files Outputs Close.
From Verif.Spec Require Import CloseSpec.
From Verif.Proof Require Import Num OutputP CloseP CloseQ CloseR CloseS.
Import ListNotations.
Local Open Scope nat_scope.

(** Until it is closed an engine is the one of C60, and the files are those of C75 and C109. *)
Theorem C141_before : forall report ms o us, ~ In Close us -> o_fired o = [] ->
  lv_engine (fst (uses report ms (opened ms o) us)) = append_all (save_of report ms) o (entries us) /\
  forall i, i < length ms -> nth i (lv_logs (fst (uses report ms (opened ms o) us))) [] = log_of ms (append_all (save_of report ms) o (entries us)) i.
Proof. exact before_close. Qed.
Print Assumptions C141_before.
(** Closing changes no file, and none is changed afterwards; closing again does nothing; the data are still collected. *)
Theorem C141_frozen : forall report ms l us, lv_logs (fst (uses report ms l (Close :: us))) = lv_logs l /\
  uses report ms l (Close :: Close :: us) = (fst (uses report ms l (Close :: us)), None :: snd (uses report ms l (Close :: us))) /\
  o_data (lv_engine (fst (uses report ms l us))) = o_data (lv_engine l) ++ entries us.
Proof.
  intros. split; [|split].
  - rewrite uses_cons. cbn [fst]. exact (proj2 (uses_closed report ms us (fst (step report ms l Close)) eq_refl)).
  - rewrite !uses_cons. reflexivity.
  - apply uses_data.
Qed.
Print Assumptions C141_frozen.
(** Without an open log, closing has no effect at all: reports are still written, on the same schedule. *)
Theorem C141_reports : forall report ms l us, (forall m, In m ms -> ~ has_file m) ->
  lv_engine (fst (uses report ms l (Close :: us))) = lv_engine (fst (uses report ms l us)) /\
  snd (uses report ms l (Close :: us)) = None :: snd (uses report ms l us).
Proof. exact nothing_to_close. Qed.
Print Assumptions C141_reports.
(** With a log of one line per iteration, every later append_iter that is not final raises, whatever was done before. *)
Theorem C141_every_iteration_refuted : forall report ms i m o us us' en, nth_error ms i = Some m -> has_file m -> o_clock o = o_intervals o ->
  nth_error (o_intervals o) i = Some (z2q 1) -> en_final en = false ->
  snd (step report ms (fst (uses report ms (opened ms o) (us ++ Close :: us'))) (Append en)) <> None.
Proof. intros. eapply every_iteration; eauto. Qed.
Print Assumptions C141_every_iteration_refuted.
(** A log with any whole interval n: of the calls made after closing, some one raises once n of them were not final. *)
Theorem C141_in_time_refuted : forall report ms n i m o us us', (1 <= n)%Z -> nth_error ms i = Some m -> has_file m -> o_clock o = o_intervals o ->
  nth_error (o_intervals o) i = Some (z2q n) -> let l := fst (uses report ms (opened ms o) us) in lv_closed l = true -> (n <= Z.of_nat (ordinary us'))%Z ->
  exists e, In (Some e) (snd (uses report ms l us')).
Proof. intros report ms n i m o us us'. apply due_in_time. Qed.
Print Assumptions C141_in_time_refuted.
(** Once a closed log has raised, every later append_iter raises, final ones too, and no saver after that log, reports
    included, is ever called again. *)
Theorem C141_stuck_refuted : forall report ms o us l en l' e i m d e' us', o_clock o = o_intervals o -> l = fst (uses report ms (opened ms o) us) -> lv_closed l = true ->
  step report ms l (Append en) = (l', e) -> In (i, d, Some e') (since l l') -> nth_error ms i = Some m -> has_file m ->
  Forall2 raised us' (snd (uses report ms l' us')) /\ forall f, In f (since l' (fst (uses report ms l' us'))) -> fst (fst f) <= i.
Proof.
  intros report ms o us l en l' e i m d e' us' K -> C S0 I N F. eapply (stuck report ms); eauto. apply uses_length. cbn. now rewrite K.
Qed.
Print Assumptions C141_stuck_refuted.
(** The savers before the first open log do not notice: they are called with the same data, and with the same outcome, as if
    the engine had not been closed. *)
Theorem C141_earlier : forall report ms k o us us', (forall j m, j < k -> nth_error ms j = Some m -> ~ has_file m) -> o_clock o = o_intervals o ->
  calls_below k (o_fired (lv_engine (fst (uses report ms (opened ms o) (us ++ Close :: us'))))) =
  calls_below k (o_fired (lv_engine (fst (uses report ms (opened ms o) (us ++ us'))))).
Proof. intros. now apply earlier_savers. Qed.
Print Assumptions C141_earlier.
(** The default savers, one iteration, closed, and then two more, the last one final: the log has its headline and one line,
    both later calls raise ValueError, and the report of the end is never written.  Not closed, it is written. *)
Example C141_nonvacuous : let ms := usual in let no : string -> list entry -> option exn := fun _ _ => None in
  let us := [Append (one 1 false); Close; Append (one 2 false); Append (one 3 true)] in
  (exists m, nth_error ms 0 = Some m /\ has_file m) /\ o_clock usual_engine = o_intervals usual_engine /\
  lv_logs (fst (uses no ms (opened ms usual_engine) us)) = [[Headline 1; Line 1 (z2q 1) (z2q 1) [z2q 1]]; []] /\
  snd (uses no ms (opened ms usual_engine) us) = [None; None; Some ValueError; Some ValueError] /\
  map (fun f => fst (fst f)) (o_fired (lv_engine (fst (uses no ms (opened ms usual_engine) us)))) = [0; 0; 0] /\
  map (fun f => fst (fst f)) (o_fired (lv_engine (fst (uses no ms (opened ms usual_engine) (filter (fun u => match u with Close => false | _ => true end) us))))) = [0; 0; 1].
Proof. cbv zeta. split; [eexists; split; [reflexivity | split; reflexivity]|]. repeat split; vm_compute; reflexivity. Qed.
(** A logger whose file could not be opened, and a report: nothing to close. *)
Example C141_nonvacuous_reports : let ms := [mk_made SLogger "log" (z2q 1) "log.csv" false; mk_made SReport "report" (z2q (-1)) "report.txt" false] in
  (forall m, In m ms -> ~ has_file m) /\
  snd (uses (fun _ _ => Some OSError) ms (opened ms usual_engine) [Append (one 1 false); Close; Append (one 2 false); Append (one 3 true)]) = [None; None; None; Some OSError].
Proof. cbv zeta. split; [intros m [<-|[<-|[]]] [A B]; discriminate | vm_compute; reflexivity]. Qed.
(** Interval three: closed after one call, the second call from then on raises, one is not enough, and the final call that
    follows raises too. *)
Example C141_nonvacuous_in_time : let ms := [mk_made SLogger "log" (z2q 3) "log.csv" true] in let o := mk_engine [z2q 3] [z2q 3] [] [] in
  lv_closed (fst (uses (fun _ _ => None) ms (opened ms o) [Append (one 1 false); Close])) = true /\
  snd (uses (fun _ _ => None) ms (opened ms o) [Append (one 1 false); Close; Append (one 2 false); Append (one 3 false); Append (one 4 true)]) = [None; None; None; Some ValueError; Some ValueError].
Proof. split; vm_compute; reflexivity. Qed.
(** A report with every iteration before the log: both reports are written although the log raises. *)
Example C141_nonvacuous_earlier : let ms := [mk_made SReport "report" (z2q 1) "report.txt" false; mk_made SLogger "log" (z2q 1) "log.csv" true] in let o := mk_engine [z2q 1; z2q 1] [z2q 1; z2q 1] [] [] in
  (forall j m, j < 1 -> nth_error ms j = Some m -> ~ has_file m) /\
  map (fun f => fst (fst f)) (calls_below 1 (o_fired (lv_engine (fst (uses (fun _ _ => None) ms (opened ms o) [Append (one 1 false); Close; Append (one 2 false)]))))) = [0; 0] /\
  snd (uses (fun _ _ => None) ms (opened ms o) [Append (one 1 false); Close; Append (one 2 false)]) = [None; None; Some ValueError].
Proof.
  cbv zeta. split; [intros [|j] m J; [intros [= <-] [A B]; discriminate | lia]|]. split; vm_compute; reflexivity.
Qed.
