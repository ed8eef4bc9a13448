(** What a section of a configuration describes: the savers, and the log. *)
From Coq Require Import String List ZArith QArith Qcanon Bool.
From Verif.Model Require Import Py Config Output Files Outputs.
From Verif.Spec Require Import ConfigSpec OutputSpec.
Import ListNotations.
Local Open Scope nat_scope.
Local Open Scope string_scope.

(** A number, or a Boolean read as 0 or 1. *)
Definition reads_as (v : json) (q : Qc) : Prop := v = JNum q \/ v = JBool true /\ q = z2q 1 \/ v = JBool false /\ q = q0.
(** An entry of the section 'output' of [config] describes this saver, created at the time [t]. *)
Record describes (opens : string -> bool) (config : json) (t : moment) (name : string) (entry : json) (m : made) : Prop := mk_describes {
  de_name : md_name m = name;
  de_kind : find entry ["type"] = Some (JStr (match md_kind m with SReport => "report" | SLogger => "logger" end));
  de_interval : exists v, find entry ["interval"] = Some v /\ reads_as v (md_interval m);
  de_legal : (q0 < md_interval m)%Qc \/ md_interval m = z2q (-1);
  de_content : md_kind m = SLogger -> exists f c, find entry ["format"] = Some (JStr f) /\ lower f = "csv" /\ find entry ["content"] = Some (JStr c) /\ lower c = "ybest";
  de_file : exists dir file, find config ["prjpath"] = Some (JStr dir) /\ md_file m = os_join dir file /\
    (find entry ["filename"] = Some (JStr file) \/
     find entry ["filename"] = Some JNull /\ exists project, find config ["experiment-name"] = Some (JStr project) /\
       file = name ++ "_" ++ project ++ "_" ++ gen_datestr t ++ match md_kind m with SReport => ".txt" | SLogger => ".csv" end);
  de_project : exists v, find config ["experiment-name"] = Some v;
  de_open : md_open m = match md_kind m with SReport => false | SLogger => opens (md_file m) end }.
(** The entries of a section that are dictionaries, in order. *)
Definition entries (items : list (string * json)) : list (string * json) := filter (fun kv => is_dict (snd kv)) items.
(** Savers for a list of entries, the i-th created at the time [now (i + k)]. *)
Definition all_described (opens : string -> bool) (config : json) (now : nat -> moment) (k : nat) (es : list (string * json)) (ms : list made) : Prop :=
  length ms = length es /\ forall j name e m, nth_error es j = Some (name, e) -> nth_error ms j = Some m -> describes opens config (now (k + j)) name e m.
(** The calls of append_iter that make a log: at least one point, a value for every point, every point with [n] inputs. *)
Definition loggable (n : nat) (ens : list entry) : Prop :=
  Forall (fun e => en_X e <> [] /\ length (en_X e) = length (en_Y e) /\ Forall (fun row => length row = n) (en_X e)) ens.
(** The line of the log for the calls so far: iteration and time of the last, and the first of the smallest values with its point. *)
Definition line_for (hist : list entry) (l : log_line) : Prop :=
  exists it t y x, l = Line it t y x /\
    (exists d0 last, hist = (d0 ++ [last])%list /\ it = en_iters last /\ t = en_time last) /\
    exists pre post, pairs hist = (pre ++ (x, y) :: post)%list /\ (forall p, In p pre -> (y < snd p)%Qc) /\ (forall p, In p post -> (y <= snd p)%Qc).
