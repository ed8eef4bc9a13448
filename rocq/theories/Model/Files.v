(** Names of output files and the objective given as a file: GPyOpt/util/io.py, GPyOpt/interface/output.py:22-48, GPyOpt/interface/func_loader.py.
    Definitions only. *)
From Coq Require Import String Ascii List Bool Arith.
From Verif.Model Require Import Py Space.
Import ListNotations.
Local Open Scope nat_scope.
Local Open Scope string_scope.

(** datetime.now(), without the fraction of the second *)
Record moment := mk_moment { mo_year : nat; mo_month : nat; mo_day : nat; mo_hour : nat; mo_minute : nat; mo_second : nat }.
(** io.py:4-10 gen_datestr *)
Definition gen_datestr (t : moment) : string :=
  str_nat (mo_year t) ++ "." ++ str_nat (mo_month t) ++ "." ++ str_nat (mo_day t) ++ "_" ++
  str_nat (mo_hour t) ++ "." ++ str_nat (mo_minute t) ++ "." ++ str_nat (mo_second t).
(** output.py:27 and 40: the name of the file of a saver; Report writes .txt, Logger .csv.  [filename]: config['filename'], None if null. *)
Inductive saver := SReport | SLogger.
Definition saver_file (k : saver) (name prjname : string) (filename : option string) (t : moment) : string :=
  match filename with
  | None => name ++ "_" ++ prjname ++ "_" ++ gen_datestr t ++ (match k with SReport => ".txt" | SLogger => ".csv" end)
  | Some f => f
  end.

(** str.lower on ASCII *)
Definition lower_ascii (c : ascii) : ascii := let n := nat_of_ascii c in if Nat.leb 65 n && Nat.leb n 90 then ascii_of_nat (n + 32) else c.
Fixpoint lower (s : string) : string := match s with EmptyString => EmptyString | String c s => String (lower_ascii c) (lower s) end.
(** s[:-3] and s.endswith('.py') *)
Definition stem (s : string) : string := substring 0 (String.length s - 3) s.
Definition ends_py (s : string) : bool := Nat.leb 3 (String.length s) && String.eqb (substring (String.length s - 3) 3 s) ".py".

(** A path: absolute or relative, and its components.  '..', links and drives are outside this model. *)
Record path := mk_path { p_abs : bool; p_parts : list string }.
(** The directory or file a path means in the working directory [cwd] *)
Definition resolve (cwd : list string) (p : path) : list string := if p_abs p then p_parts p else (cwd ++ p_parts p)%list.
(** os.path.join(p, file), [file] without '/' *)
Definition join (p : path) (file : string) : path := mk_path (p_abs p) (p_parts p ++ [file])%list.
(** The world: which directories exist, and what running the file at a path leaves in the module's __dict__, or the exception. *)
Record world (F : Type) := mk_world { w_dir : list string -> bool; w_run : list string -> res (list (string * F)) }.
Arguments w_dir {F}. Arguments w_run {F}. Arguments mk_world {F}.
Fixpoint lookup {F} (k : string) (d : list (string * F)) : res F :=
  match d with [] => Raise KeyError | (k', v) :: d => if String.eqb k k' then Ok v else lookup k d end.
(** func_loader.py:7-22 load_objective: the keys 'prjpath', 'main-file' and 'language' of the configuration, None when absent.  The first
    result is the working directory afterwards. *)
Definition load_objective {F} (w : world F) (cwd : list string) (prjpath : option path) (main_file language : option string) : list string * res F :=
  match prjpath, main_file with
  | None, _ | _, None => (cwd, Raise AssertionError)
  | Some prj, Some file =>
      let dir := resolve cwd prj in
      if w_dir w dir then
        (dir,
         match language with
         | None => Raise KeyError
         | Some lang =>
             if String.eqb (lower lang) "python" then
               if ends_py file then m <- w_run w (resolve dir (join prj file)) ;; lookup (stem file) m else Raise AssertionError
             else Raise UnboundLocalError
         end)
      else (cwd, Raise OSError)
  end.
