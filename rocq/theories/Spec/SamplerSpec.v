(** What is asked of the ensemble sampler. *)
From Coq Require Import List Reals.
From Coquelicot Require Import Rbar.
From Verif.Model Require Import Py Space Sampler.
Import ListNotations.

(** One step of an accept-reject sampler with log density [logp]: a walker stays, or moves to a point of positive density. *)
Definition moves (logp : list R -> Rbar) (s s' : list (list R * Rbar)) : Prop :=
  Forall2 (fun p p' => p' = p \/ (snd p' = logp (fst p') /\ snd p' <> m_infty /\ length (fst p') = length (fst p))) s s'.
Inductive chain (logp : list R -> Rbar) (s : list (list R * Rbar)) : nat -> list (list R * Rbar) -> Prop :=
| chain_here : chain logp s 0 s
| chain_step k s' s'' : chain logp s k s' -> moves logp s' s'' -> chain logp s (S k) s''.
(** Whatever it returns is reached from the start, where every walker has the log density of its position. *)
Definition accept_reject (ens : ensemble) : Prop := forall walkers d logp start steps pts,
  ens walkers d logp start steps = Ok pts -> exists k, chain logp (map (fun x => (x, logp x)) start) k pts.

(** A Metropolis sampler: at every step each walker has a proposal and a draw that decides between moving and staying; points of density
    0 are never accepted. *)
Definition metropolis_step (prop : list R -> nat -> nat -> list R) (accept : nat -> nat -> bool) (logp : list R -> Rbar) (k : nat)
  (s : list (list R * Rbar)) : list (list R * Rbar) :=
  map (fun ip => let '(i, (x, l)) := ip in
         let y := prop x k i in
         match logp y with m_infty => (x, l) | l' => if accept k i then (y, l') else (x, l) end) (combine (seq 0 (length s)) s).
Fixpoint metropolis_from (prop : list R -> nat -> nat -> list R) (accept : nat -> nat -> bool) (logp : list R -> Rbar) (steps k : nat)
  (s : list (list R * Rbar)) : list (list R * Rbar) :=
  match steps with O => s | S m => metropolis_from prop accept logp m (S k) (metropolis_step prop accept logp k s) end.
Definition metropolis (prop : list R -> nat -> nat -> list R) (accept : nat -> nat -> bool) : ensemble :=
  fun _ _ logp start steps => Ok (metropolis_from prop accept logp steps 0 (map (fun x => (x, logp x)) start)).

Definition in_box_R (bs : list (R * R)) (x : list R) : Prop := Forall2 (fun b v => (fst b <= v <= snd b)%R) bs x.
(** Continuous and discrete variables. *)
Definition numeric (k : kind) : Prop := match k with KCont _ _ | KDisc _ => True | _ => False end.
Definition box_of (bs : list (Qcanon.Qc * Qcanon.Qc)) : list (R * R) := map (fun b => (q2r (fst b), q2r (snd b))) bs.
