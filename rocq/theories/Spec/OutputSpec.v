(** When a saver has to fire, and what a line of the log has to say. *)
From Coq Require Import String List ZArith QArith Qcanon Bool.
From Verif.Model Require Import Py Output.
Import ListNotations.
Local Open Scope nat_scope.

(** The calls so far after the first, the second, ... call. *)
Definition histories (ens : list entry) : list (list entry) := map (fun k => firstn k ens) (seq 1 (length ens)).
(** Is a saver with this interval to fire at the last call of [hist]? *)
Definition due (interval : Z) (hist : list entry) : bool :=
  match rev hist with
  | [] => false
  | now :: _ =>
      if Z.eqb interval (-1) then en_final now
      else negb (en_final now) && Z.eqb (Z.modulo (Z.of_nat (length (filter (fun e => negb (en_final e)) hist))) interval) 0
  end.
(** The data with which saver i was called, in order. *)
Definition saved_by (i : nat) (o : engine) : list (list entry) :=
  map (fun f => snd (fst f)) (filter (fun f => Nat.eqb (fst (fst f)) i) (o_fired o)).
(** Points and values reported so far, in order; every call has as many values as points. *)
Definition pairs (data : list entry) : list (vec * Qc) := concat (map (fun e => combine (en_X e) (en_Y e)) data).
Definition same_shape (data : list entry) : Prop := Forall (fun e => length (en_X e) = length (en_Y e)) data.
