(** GPyOpt/interface/output.py: the output engine and the csv logger.  Definitions only. *)
From Coq Require Import String List ZArith QArith Qcanon Bool.
From Verif.Model Require Import Py Optim.
Import ListNotations.
Local Open Scope nat_scope.

(** One append_iter call: the iteration number, the time, X and Y (one value per row), and whether it is final. *)
Record entry := mk_entry { en_iters : nat; en_time : Qc; en_X : mat; en_Y : vec; en_final : bool }.
(** output.py:8-14 DataSaver.__init__ *)
Definition data_saver (interval : Qc) : res Qc := if qclt q0 interval || qceq interval (z2q (-1)) then Ok interval else Raise AssertionError.
(** The engine: the intervals of the savers, their clocks, the data so far, and (for the specification only) the calls of save_data:
    which saver, with which data, and whether it raised. *)
Record engine := mk_engine { o_intervals : list Qc; o_clock : list Qc; o_data : list entry; o_fired : list (nat * list entry * option exn) }.
(** output.py:72-84 OutputEng.__init__ (without the creation of the savers from their configuration) *)
Definition output_eng (intervals : list Qc) : res engine :=
  ivs <- mapM data_saver intervals ;; Ok (mk_engine ivs ivs [] []).
Section Engine.
(** [save i data] is what data_savers[i].save_data does with the data: returns or raises *)
Variable save : nat -> list entry -> option exn.
(** output.py:93-99 the loop over the savers; [i] is the index of the first saver of [ivs] and [clock] *)
Fixpoint savers (final : bool) (data : list entry) (ivs clock : list Qc) (i : nat) : list Qc * list (nat * list entry * option exn) * option exn :=
  match ivs, clock with
  | iv :: ivs', c :: clock' =>
      let c := if final then (if qceq c (z2q (-1)) then q0 else c) else (if qclt q0 c then (c + z2q (-1))%Qc else c) in
      if qceq c q0 then
        match save i data with
        | Some e => (c :: clock', [(i, data, Some e)], Some e)
        | None => match savers final data ivs' clock' (S i) with (cs, fs, e) => (iv :: cs, (i, data, None) :: fs, e) end
        end
      else match savers final data ivs' clock' (S i) with (cs, fs, e) => (c :: cs, fs, e) end
  | _, _ => (clock, [], None)
  end.
(** output.py:86-99 append_iter *)
Definition append_iter (o : engine) (en : entry) : engine * option exn :=
  let data := o_data o ++ [en] in
  match savers (en_final en) data (o_intervals o) (o_clock o) 0 with
  | (cs, fs, e) => (mk_engine (o_intervals o) cs data (o_fired o ++ fs), e)
  end.
(** Any sequence of calls; exceptions are caught by the caller. *)
Definition append_all (o : engine) (ens : list entry) : engine := fold_left (fun o en => fst (append_iter o en)) ens o.
End Engine.

(** output.py:53-63 Logger.save_data: the line written (without the headline): iteration, time, the smallest objective value and
    the first row that has it *)
Definition logger_line (data : list entry) : res (nat * Qc * Qc * vec) :=
  let Y := concat (map en_Y data) in
  let X := concat (map en_X data) in
  match argmin Y, rev data with
  | Some idx, last :: _ =>
      match nth_error Y idx, nth_error X idx with
      | Some y, Some x => Ok (en_iters last, en_time last, y, x)
      | _, _ => Raise IndexError
      end
  | _, _ => Raise ValueError
  end.
