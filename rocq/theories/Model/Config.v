(** Configuration files: GPyOpt/interface/config_parser.py and the part of GPyOpt/interface/driver.py that reads them.
    Definitions only. *)
From Coq Require Import String List ZArith QArith Qcanon Bool.
From Verif.Model Require Import Py Space Call.
Import ListNotations.
Local Open Scope nat_scope.

(** What json.load can return.  A dictionary is its items in insertion order. *)
Inductive json :=
| JDict (items : list (string * json))
| JList (l : list json)
| JStr (s : string)
| JNum (q : Qc)
| JBool (b : bool)
| JNull.
Definition is_dict (v : json) : bool := match v with JDict _ => true | _ => false end.
(** d.get(k) and d[k] = v of a Python dictionary: an existing key keeps its place *)
Fixpoint dget {A} (k : string) (d : list (string * A)) : option A :=
  match d with [] => None | (k', v) :: r => if String.eqb k k' then Some v else dget k r end.
Fixpoint dset {A} (k : string) (v : A) (d : list (string * A)) : list (string * A) :=
  match d with [] => [(k, v)] | (k', v') :: r => if String.eqb k k' then (k', v) :: r else (k', v') :: dset k v r end.

(** config_parser.py:62-75 update_config.  The default is updated in place; the result is the updated default.  A default that is not
    a dictionary: the first assignment config_default[k] = v (or the look-up before it) raises TypeError, .update raises
    AttributeError; a new configuration that is not a dictionary has no .values. *)
Fixpoint update_config (config_new config_default : json) {struct config_new} : res json :=
  match config_new with
  | JDict items =>
      if existsb (fun kv => is_dict (snd kv)) items then
        match config_default with
        | JDict d0 =>
            (fix go (items : list (string * json)) (d : list (string * json)) {struct items} : res json :=
               match items with
               | [] => Ok (JDict d)
               | (k, v) :: r =>
                   match is_dict v, dget k d with
                   | true, Some dv => dv' <- update_config v dv ;; go r (dset k dv' d)
                   | _, _ => go r (dset k v d)
                   end
               end) items d0
        | _ => Raise TypeError
        end
      else
        match config_default with
        | JDict d0 => Ok (JDict (fold_left (fun d kv => dset (fst kv) (snd kv) d) items d0))
        | _ => Raise AttributeError
        end
  | _ => Raise AttributeError
  end.

(** config_parser.py:10-59 default_config *)
Definition num (z : Z) : json := JNum (z2q z).
Definition default_config : json := JDict [
  ("language", JStr "PYTHON"); ("experiment-name", JStr "no-named-experiment"); ("likelihood", JStr "NOISELESS");
  ("initialization", JDict [("type", JStr "random"); ("num-eval", num 5)]);
  ("model", JDict [("type", JStr "GP"); ("num_inducing", num 10)]);
  ("constraints", JList []);
  ("resources", JDict [("maximum-iterations", num 20); ("max-run-time", JStr "NA"); ("cores", num 1); ("tolerance", JNum (Q2Qc (1 # 100000000)))]);
  ("acquisition", JDict [("type", JStr "EI"); ("jitter", JNum (Q2Qc (1 # 100))); ("optimizer", JDict [("name", JStr "lbfgs")]); ("evaluator", JDict [("type", JStr "sequential")])]);
  ("output", JDict [("verbosity", JBool false);
     ("file-report", JDict [("type", JStr "report"); ("filename", JNull); ("interval", num (-1))]);
     ("Ybest", JDict [("type", JStr "logger"); ("content", JStr "ybest"); ("format", JStr "csv"); ("filename", JNull); ("interval", num 1)])])
  ]%string.
(** config_parser.py:78-94 parser: [file] is None when reading or decoding fails *)
Definition parser (file : option json) : res json :=
  match file with None => Raise PlainException | Some config_new => update_config config_new default_config end.

(** config[k] *)
Definition jget (c : json) (k : string) : res json :=
  match c with JDict d => match dget k d with Some v => Ok v | None => Raise KeyError end | _ => Raise TypeError end.
(** driver.py:34-43 _get_space.  [from_config] is Design_space.fromConfig: not described. *)
Definition get_space (from_config : json -> json -> res space) (config : json) : res space :=
  match jget config "space" with
  | Raise _ => Raise AssertionError
  | Ok sc => cc <- jget config "constraints" ;; from_config sc cc
  end.
(** driver.py:24-32 _get_obj: two positional arguments and two keywords *)
Definition get_obj (config : json) : res unit :=
  r <- jget config "resources" ;; _ <- jget r "cores" ;; call sig_SingleObjective 2 ["space"; "unfold_args"]%string.
(** driver.py:100-119 run.  [rest] is everything after _get_obj. *)
Definition driver_run {A} (from_config : json -> json -> res space) (rest : space -> res A) (config : json) : res A :=
  sp <- get_space from_config config ;; _ <- get_obj config ;; rest sp.
