(** GPyOpt/interface/output.py: the output engine together with the files of its loggers, and closing it.  Definitions only. *)
From Coq Require Import String List ZArith QArith Qcanon Bool.
From Verif.Model Require Import Py Optim Call Config Options Output Files Outputs.
Import ListNotations.
Local Open Scope nat_scope.

(** An engine, whether it was closed, and the lines in the files of its savers (for a report: none). *)
Record live := mk_live { lv_engine : engine; lv_closed : bool; lv_logs : list (list log_line) }.
(** What a user does with an engine. *)
Inductive use := Append (en : entry) | Close.

Section Live.
Variables (report : string -> list entry -> option exn) (ms : list made).
(** output.py:53-63 Logger.save_data when the file is closed: write raises ValueError, with the headline pending before anything is
    computed, otherwise after the line was.  A logger without a file returns at once. *)
Definition log_closed (opened : bool) (w : list log_line) (data : list entry) : option exn :=
  if negb opened then None
  else match w with
       | [] => Some ValueError
       | _ => match logger_line data with Ok _ => Some ValueError | Raise e => Some e end
       end.
(** save_data of the i-th saver after close; bo.save_report opens its file itself (output.py:30-31, bo.py:319) *)
Definition save_closed (logs : list (list log_line)) (i : nat) (data : list entry) : option exn :=
  match nth_error ms i with
  | Some m => match md_kind m with SReport => report (md_file m) data | SLogger => log_closed (md_open m) (nth i logs []) data end
  | None => None
  end.
(** the file of saver [i] after these calls of save_data *)
Definition written (m : made) (i : nat) (fired : list (nat * list entry * option exn)) (w : list log_line) : list log_line :=
  fold_left (fun w f => if Nat.eqb (fst (fst f)) i then fst (log_save (md_open m) w (snd (fst f))) else w) fired w.
Definition write_all (fired : list (nat * list entry * option exn)) (logs : list (list log_line)) : list (list log_line) :=
  map (fun p => written (snd (fst p)) (fst (fst p)) fired (snd p)) (combine (combine (seq 0 (length ms)) ms) logs).
(** output.py:86-99 append_iter; 101-102 close with 48-50 Logger.close (closing a closed file does nothing) and 18-19 *)
Definition step (l : live) (u : use) : live * option exn :=
  match u with
  | Close => (mk_live (lv_engine l) true (lv_logs l), None)
  | Append en =>
      if lv_closed l then
        match append_iter (save_closed (lv_logs l)) (lv_engine l) en with
        | (o, e) => (mk_live o true (lv_logs l), e)
        end
      else
        match append_iter (save_of report ms) (lv_engine l) en with
        | (o, e) => (mk_live o false (write_all (skipn (length (o_fired (lv_engine l))) (o_fired o)) (lv_logs l)), e)
        end
  end.
(** any sequence of uses, with what each raised *)
Fixpoint uses (l : live) (us : list use) : live * list (option exn) :=
  match us with
  | [] => (l, [])
  | u :: us => let (l, e) := step l u in let (l, es) := uses l us in (l, e :: es)
  end.
(** output.py:72-84 a new engine *)
Definition opened (o : engine) : live := mk_live o false (map (fun _ => []) ms).
End Live.
