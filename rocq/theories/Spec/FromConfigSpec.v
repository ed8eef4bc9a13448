(** Vocabulary for the statements about configurations of a design space. *)
From Coq Require Import String List.
From Verif.Model Require Import Py Space FromConfig.
Import ListNotations.

(** The configuration [d] says, in strings, what the description [v] says in values; a dimensionality may also be a number. *)
Definition says (rd : readers) (d : cvar) (v : descr) : Prop :=
  cv_name d = d_name v /\ cv_type d = d_type v /\
  (exists s dom, cv_domain d = Some (CStr s) /\ literal_eval rd s = Ok dom /\ d_domain v = Some dom) /\
  (exists n, d_dim v = Some n /\ (cv_dim d = Some (CVal n) \/ exists s, cv_dim d = Some (CStr s) /\ int_of rd s = Ok n)).
(** The description as a configuration of values. *)
Definition in_values (v : descr) : cvar := mk_cvar (d_name v) (d_type v) (option_map CVal (d_domain v)) (option_map CVal (d_dim v)).
