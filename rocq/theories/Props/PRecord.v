(** C121: the recorded parameters of the surrogate. *)
From Coq Require Import List Arith Lia.
From Verif.Model Require Import Record.
From Verif.Spec Require Import RecordSpec.
From Verif.Proof Require Import RecordP.
Import ListNotations.

(** If the library hands out copies of its parameters, the record of a run shows the parameters after every update of that run, in order,
    whatever happened before. *)
Theorem C121_copies : forall P (history : list (step P)) q us, shown (run_of false history q us) = Some (q :: after_updates q us).
Proof. intros P history q us. rewrite run_split. unfold shown. rewrite own_more. reflexivity. Qed.
Print Assumptions C121_copies.
(** If it hands out its own array, the first row of every run of two or more updates is overwritten with the second. *)
Theorem C121_views : forall P (history : list (step P)) q us,
  shown (run_of true history q us) = Some (match after_updates q us with q2 :: l => q2 :: q2 :: l | [] => [q] end).
Proof.
  intros P history q us. rewrite run_split. destruct us as [|u us]; [reflexivity|]. unfold steps. cbn [map fold_left after_updates].
  set (q2 := match u with Some q' => q' | None => q end).
  assert (E : do_step true (mk_rstate (Some q) RLive) (Update u) = mk_rstate (Some q2) (ROwn [q2; q2])) by (unfold q2; destruct u; reflexivity).
  rewrite E. unfold shown. fold (steps true (map Update us) (mk_rstate (Some q2) (ROwn [q2; q2]))). rewrite own_more. reflexivity.
Qed.
Print Assumptions C121_views.
(** So the record of a run is right exactly when copies are handed out, or the second update changed nothing, or there was none. *)
Theorem C121_exactly_when : forall P (history : list (step P)) q us shares,
  shown (run_of shares history q us) = Some (q :: after_updates q us) <-> shares = false \/ forall q2 l, after_updates q us = q2 :: l -> q2 = q.
Proof.
  intros P history q us [|].
  - rewrite C121_views. split.
    + intros E. right. intros q2 l A. rewrite A in E. now injection E.
    + intros [F|F]; [discriminate|]. destruct (after_updates q us) as [|q2 l]; [reflexivity|]. now rewrite (F q2 l eq_refl).
  - rewrite C121_copies. split; auto.
Qed.
Print Assumptions C121_exactly_when.
(** In every case one row for each update. *)
Theorem C121_rows : forall P (history : list (step P)) q us shares,
  exists rows, shown (run_of shares history q us) = Some rows /\ length rows = S (length us).
Proof.
  assert (L : forall P us (p : P), length (after_updates p us) = length us) by (intros P; induction us as [|u us IH]; intros p; [reflexivity|cbn; now rewrite IH]).
  intros P history q us [|].
  - rewrite C121_views. eexists. split; [reflexivity|]. rewrite <- (L P us q). destruct (after_updates q us); reflexivity.
  - rewrite C121_copies. eexists. split; [reflexivity|]. cbn. now rewrite L.
Qed.
Print Assumptions C121_rows.
(** Until its first update a run has no record, and starting it leaves the parameters of the surrogate alone. *)
Theorem C121_start : forall P (history : list (step P)) shares,
  shown (steps shares (history ++ [Begin]) untrained) = None /\ live (steps shares (history ++ [Begin]) untrained) = live (steps shares history untrained).
Proof. intros P history shares. unfold steps. rewrite fold_left_app. split; reflexivity. Qed.
Print Assumptions C121_start.
(** A suggestion, then a run of four updates, the third skipped. *)
Example C121_nonvacuous :
  shown (run_of true [Begin; Update (Some 7)] 8 [Some 9; None; Some 5]) = Some [9; 9; 9; 5] /\
  shown (run_of false [Begin; Update (Some 7)] 8 [Some 9; None; Some 5]) = Some [8; 9; 9; 5].
Proof. repeat split. Qed.
