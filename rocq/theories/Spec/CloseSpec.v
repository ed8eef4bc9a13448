(** Closing an output engine. *)
From Coq Require Import String List ZArith QArith Qcanon Bool.
From Verif.Model Require Import Py Optim Call Config Options Output Files Outputs Close.
Import ListNotations.
Local Open Scope nat_scope.

(** A logger whose file could be opened. *)
Definition has_file (m : made) : Prop := md_kind m = SLogger /\ md_open m = true.
(** The calls of append_iter among the uses of an engine. *)
Fixpoint entries (us : list use) : list entry :=
  match us with [] => [] | Append en :: us => en :: entries us | Close :: us => entries us end.
(** A use that is no call of append_iter, or that raised. *)
Definition raised (u : use) (e : option exn) : Prop := match u with Close => True | Append _ => e <> None end.
(** The calls of save_data that [l'] made and [l] had not. *)
Definition since (l l' : live) : list (nat * list entry * option exn) := skipn (length (o_fired (lv_engine l))) (o_fired (lv_engine l')).
(** One point with one input, its own value. *)
Definition one (n : Z) (final : bool) : entry := mk_entry (Z.to_nat n) (z2q n) [[z2q n]] [z2q n] final.
(** The default: a report at the end and a line of the log per iteration. *)
Definition usual : list made := [mk_made SLogger "log" (z2q 1) "log.csv" true; mk_made SReport "report" (z2q (-1)) "report.txt" false].
Definition usual_engine : engine := mk_engine [z2q 1; z2q (-1)] [z2q 1; z2q (-1)] [] [].
(** How many of the uses are calls of append_iter that are not final. *)
Fixpoint ordinary (us : list use) : nat :=
  match us with [] => 0 | Append en :: us => if en_final en then ordinary us else S (ordinary us) | Close :: us => ordinary us end.
(** The calls of save_data of the first [k] savers. *)
Definition calls_below (k : nat) (fired : list (nat * list entry * option exn)) : list (nat * list entry * option exn) := filter (fun f => Nat.ltb (fst (fst f)) k) fired.
