(** The record of parameters. *)
From Coq Require Import List.
From Verif.Model Require Import Record.
From Verif.Spec Require Import RecordSpec.
Import ListNotations.

Section S.
Context {P : Type}.
Lemma own_more shares : forall us (p : P) rows, recorded (steps shares (map Update us) (mk_rstate (Some p) (ROwn rows))) = ROwn (rows ++ after_updates p us).
Proof.
  induction us as [|u us IH]; intros p rows; [cbn; now rewrite app_nil_r|]. unfold steps in *. cbn [map fold_left].
  assert (E : do_step shares (mk_rstate (Some p) (ROwn rows)) (Update u) = mk_rstate (Some (match u with Some q => q | None => p end)) (ROwn (rows ++ [match u with Some q => q | None => p end]))) by (destruct u; reflexivity).
  rewrite E, IH, <- app_assoc. reflexivity.
Qed.
Lemma run_split shares (history : list (step P)) q us :
  run_of shares history q us = steps shares (map Update us) (mk_rstate (Some q) (if shares then RLive else ROwn [q])).
Proof. unfold run_of, steps. rewrite fold_left_app. cbn [fold_left do_step]. destruct shares; reflexivity. Qed.
End S.
