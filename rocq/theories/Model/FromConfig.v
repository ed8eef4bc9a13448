(** Design_space.fromConfig: GPyOpt/core/task/space.py:89-98.  Definitions only. *)
From Coq Require Import String List QArith Qcanon Bool.
From Verif.Model Require Import Py Space.
Import ListNotations.
Local Open Scope nat_scope.

(** A value in the configuration: a string still to be read, or a value. *)
Inductive cval (A : Type) := CStr (s : string) | CVal (a : A).
Arguments CStr {A} s. Arguments CVal {A} a.
(** The dictionary of one variable; None = key absent. *)
Record cvar := mk_cvar { cv_name : option string; cv_type : option string; cv_domain : option (cval rawdom); cv_dim : option (cval nat) }.

(** ast.literal_eval and int on strings.  Domains that are not numbers or rows of numbers and negative dimensionalities are outside this
    model. *)
Record readers := mk_readers { literal_eval : string -> res rawdom; int_of : string -> res nat }.

(** space.py:94-95 the dimensionality: a missing key raises KeyError, only strings are converted *)
Definition read_dim (rd : readers) (d : cvar) : res cvar :=
  match cv_dim d with
  | None => Raise KeyError
  | Some (CStr s) => n <- int_of rd s ;; Ok (mk_cvar (cv_name d) (cv_type d) (cv_domain d) (Some (CVal n)))
  | Some (CVal _) => Ok d
  end.
(** space.py:96 the domain: literal_eval raises ValueError on what is neither a string nor a syntax node *)
Definition read_domain (rd : readers) (d : cvar) : res cvar :=
  match cv_domain d with
  | None => Raise KeyError
  | Some (CVal _) => Raise ValueError
  | Some (CStr s) => v <- literal_eval rd s ;; Ok (mk_cvar (cv_name d) (cv_type d) (Some (CVal v)) (cv_dim d))
  end.
(** space.py:93-96 the loop; it changes the dictionaries it is given, the first result is their state at the end *)
Fixpoint read_all (rd : readers) (ds : list cvar) : list cvar * res unit :=
  match ds with
  | [] => ([], Ok tt)
  | d :: t =>
      match read_dim rd d with
      | Raise e => (d :: t, Raise e)
      | Ok d =>
          match read_domain rd d with
          | Raise e => (d :: t, Raise e)
          | Ok d => let (t', r) := read_all rd t in (d :: t', r)
          end
      end
  end.
(** The dictionary as the constructor sees it.  It is called only on dictionaries whose strings have been read; a string in the place of
    a value is outside this model. *)
Definition as_descr (d : cvar) : res descr :=
  dom <- match cv_domain d with None => Ok None | Some (CVal v) => Ok (Some v) | Some (CStr _) => Raise OutOfModel end ;;
  dim <- match cv_dim d with None => Ok None | Some (CVal n) => Ok (Some n) | Some (CStr _) => Raise OutOfModel end ;;
  Ok (mk_descr (cv_name d) (cv_type d) dom dim).
(** space.py:89-98 fromConfig *)
Definition fromConfig (rd : readers) (ds : list cvar) (constraints : list constr) : list cvar * res space :=
  match read_all rd ds with
  | (ds', Raise e) => (ds', Raise e)
  | (ds', Ok _) => (ds', l <- mapM as_descr ds' ;; design_space l (match constraints with [] => None | _ => Some constraints end))
  end.
