(** GPyOpt/interface/output.py: the savers created from a configuration, and what a logger writes.  Definitions only. *)
From Coq Require Import String Ascii List ZArith QArith Qcanon Bool.
From Verif.Model Require Import Py Space Optim Config Output Files.
Import ListNotations.
Local Open Scope nat_scope.
Local Open Scope string_scope.

(** os.path.join of two strings (posix) *)
Fixpoint ends_slash (s : string) : bool :=
  match s with EmptyString => false | String c EmptyString => Ascii.eqb c "/" | String _ r => ends_slash r end.
Definition os_join (a b : string) : string :=
  if prefix "/" b then b else if String.eqb a "" || ends_slash a then a ++ b else a ++ "/" ++ b.

(** A saver: its class, its name in the configuration, its interval, its file, and for a logger whether the file could be opened. *)
Record made := mk_made { md_kind : saver; md_name : string; md_interval : Qc; md_file : string; md_open : bool }.
(** output.py:9-10 the interval: True and False are numbers, other values cannot be compared with one *)
Definition interval_of (v : json) : res Qc :=
  match v with JNum q => data_saver q | JBool b => data_saver (if b then z2q 1 else q0) | _ => Raise TypeError end.
(** output.py:27-28 and 40-41: the file of a saver.  A name that is not a string fails in os.path.join, an experiment name that is not a
    string in the concatenation. *)
Definition file_of (k : saver) (name : string) (prjpath prjname filename : json) (t : moment) : res string :=
  f <- match filename with
       | JNull => match prjname with JStr p => Ok (saver_file k name p None t) | _ => Raise TypeError end
       | JStr f => Ok (saver_file k name "" (Some f) t)
       | _ => Raise TypeError
       end ;;
  match prjpath with JStr p => Ok (os_join p f) | _ => Raise TypeError end.
(** config[k].lower() == s in an assertion: AttributeError for a value without .lower *)
Definition says (v : json) (s : string) : res unit :=
  match v with JStr x => if String.eqb (lower x) s then Ok tt else Raise AssertionError | _ => Raise AttributeError end.
(** output.py:82 _support_savers[ds['type']]: lists and dictionaries are not hashable *)
Definition saver_class (v : json) : res saver :=
  match v with
  | JStr s => if String.eqb s "report" then Ok SReport else if String.eqb s "logger" then Ok SLogger else Raise KeyError
  | JDict _ | JList _ => Raise TypeError
  | _ => Raise KeyError
  end.
(** output.py:82 one saver; :8-14, :23-28 Report.__init__, :34-47 Logger.__init__.  [opens]: can the file be opened for writing? *)
Definition make_saver (opens : string -> bool) (config : json) (t : moment) (name : string) (ds : json) : res made :=
  ty <- jget ds "type" ;;
  k <- saver_class ty ;;
  prjpath <- jget config "prjpath" ;;
  prjname <- jget config "experiment-name" ;;
  v <- jget ds "interval" ;;
  iv <- interval_of v ;;
  _ <- match k with
       | SReport => Ok tt
       | SLogger => f <- jget ds "format" ;; _ <- says f "csv" ;; c <- jget ds "content" ;; says c "ybest"
       end ;;
  fn <- jget ds "filename" ;;
  file <- file_of k name prjpath prjname fn t ;;
  Ok (mk_made k name iv file (match k with SReport => false | SLogger => opens file end)).
(** output.py:82 the comprehension over the entries of the section that are dictionaries; [now i] is the time when the i-th is created.
    The first result: the files emptied by open(.., 'w'), also when a later saver raises. *)
Fixpoint make_savers (opens : string -> bool) (config : json) (now : nat -> moment) (i : nat) (items : list (string * json))
  : list string * res (list made) :=
  match items with
  | [] => ([], Ok [])
  | (name, ds) :: items =>
      if is_dict ds then
        match make_saver opens config (now i) name ds with
        | Raise e => ([], Raise e)
        | Ok m =>
            let '(fs, r) := make_savers opens config now (S i) items in
            ((if md_open m then [md_file m] else []) ++ fs, ms <- r ;; Ok (m :: ms))%list
        end
      else make_savers opens config now i items
  end.
(** output.py:72-84 OutputEng.__init__: the emptied files, the savers and the engine *)
Definition output_init (opens : string -> bool) (config : json) (now : nat -> moment) : list string * res (list made * engine) :=
  match jget config "output" with
  | Raise e => ([], Raise e)
  | Ok (JDict items) =>
      let '(fs, r) := make_savers opens config now 0 items in
      (fs, ms <- r ;; let ivs := map md_interval ms in Ok (ms, mk_engine ivs ivs [] []))
  | Ok _ => ([], Raise AttributeError)
  end.

(** /repo/gpyopt.py:16-17: the parsed configuration with the directory of its file as project path *)
Definition with_project (config : json) (curpath : string) : res json :=
  match config with JDict d => Ok (JDict (dset "prjpath" (JStr curpath) d)) | _ => Raise TypeError end.

(** /repo/gpyopt.py:7-22 the script with its arguments sys.argv; None is exit() after the message.  [read] is the content of a file, [dirname]
    os.path.dirname(os.path.abspath(.)), [load] load_objective, [save] what follows the run (lines 22-23). *)
Definition script {F A B} (read : string -> option json) (dirname : string -> string) (load : json -> res F)
  (from_config : json -> json -> res space) (rest : F -> space -> res A) (save : json -> A -> res B) (argv : list string) : res (option B) :=
  if Nat.ltb (length argv) 1 then Ok None
  else
    file <- match nth_error argv 1 with Some f => Ok f | None => Raise IndexError end ;;
    config <- parser (read file) ;;
    config <- with_project config (dirname file) ;;
    obj <- load config ;;
    bo <- driver_run from_config (rest obj) config ;;
    b <- save config bo ;;
    Ok (Some b).

(** What stands in the file of a logger: the headline with the number of inputs, or a line with iteration, time, objective and input.
    The text of numbers is not modelled. *)
Inductive log_line := Headline (inputs : nat) | Line (iteration : nat) (time objective : Qc) (input : vec).
Definition width (data : list entry) : nat :=
  match data with e :: _ => match en_X e with row :: _ => length row | [] => 0 end | [] => 0 end.
(** output.py:53-63 Logger.save_data on a file with the lines [w]; the headline is pending exactly as long as nothing has been written.
    Simplification: the points have the same number of inputs (else np.vstack raises), and the first call has a point. *)
Definition log_save (opened : bool) (w : list log_line) (data : list entry) : list log_line * option exn :=
  if negb opened then (w, None)
  else
    let w := match w with [] => [Headline (width data)] | _ => w end in
    match logger_line data with
    | Ok (it, t, y, x) => ((w ++ [Line it t y x])%list, None)
    | Raise e => (w, Some e)
    end.
(** What a call of save_data raises, for the engine of Model/Output.v; [report file data] is what bo.save_report does (output.py:30-31). *)
Definition save_of (report : string -> list entry -> option exn) (ms : list made) (i : nat) (data : list entry) : option exn :=
  match nth_error ms i with
  | Some m => match md_kind m with SReport => report (md_file m) data | SLogger => snd (log_save (md_open m) [] data) end
  | None => None
  end.
(** The file of saver [i] after the calls of its save_data that the engine has made. *)
Definition log_of (ms : list made) (o : engine) (i : nat) : list log_line :=
  match nth_error ms i with
  | Some m => fold_left (fun w f => if Nat.eqb (fst (fst f)) i then fst (log_save (md_open m) w (snd (fst f))) else w) (o_fired o) []
  | None => []
  end.
