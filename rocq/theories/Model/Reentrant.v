(** An objective that uses the optimizer while the optimizer evaluates it: GPyOpt/core/bo.py:60-76 called from inside
    bo.py:125-129 and 198-204.  Definitions only. *)
From Coq Require Import String List ZArith QArith Qcanon Bool.
From Verif.Model Require Import Py Space Design Optim Objective BO.
Import ListNotations.
Local Open Scope nat_scope.

(** What the objective does before it returns its value at a row, after the calls [h] made in this process: nothing, or a
    call of suggest_next_locations with these arguments, whose exceptions it catches and whose result it throws away. *)
Definition asking := list vec -> vec -> option (option (list (string * Qc)) * option mat * option mat).

Section Reentrant.
Context {M : Type}.
Notation env := (env M).
Notation st := (st M).

(** The calls made while [rows] are evaluated one after the other in this process (objective.py:64-77).  The result says
    whether all of them returned. *)
Fixpoint meddle (E : env) (ask : asking) (s : st) (h : list vec) (rows : mat) : st * bool :=
  match rows with
  | [] => (s, true)
  | x :: r =>
      match ask h x with
      | None => meddle E ask s (h ++ [x]) r
      | Some (c, p, i) =>
          match suggest_next_locations E s c p i with
          | (s, None) => (s, false)
          | (s, Some _) => meddle E ask s (h ++ [x]) r
          end
      end
  end.
(** objective.py:44-61 evaluate, as far as it concerns the object: the rows evaluated in this process are those by which
    its history grows.  A child process (80-101) works on a copy of the object, so that its calls leave no trace here.
    suggest_next_locations reads neither the clock nor the history, so the values are those of Objective.v. *)
Definition during (E : env) (o : objective) (ask : asking) (s : st) (x : mat) : st * bool :=
  match evaluate o (e_clock E) (s_hist s) (s_tick s) x with
  | (h, _, _) => meddle E ask s (s_hist s) (skipn (length (s_hist s)) h)
  end.
(** bo.py:198-204 evaluate_objective: X has been extended already, Y is extended when the objective is done *)
Definition evaluate_objective_in (E : env) (o : objective) (ask : asking) (s : st) : st * run unit :=
  match during E o ask s (s_sugg s) with
  | (s, true) => evaluate_objective E o s
  | (s, false) => (s, None)
  end.
(** bo.py:139-164 the while loop *)
Fixpoint loop_in (fuel : nat) (E : env) (o : objective) (ask : asking) (mi mt : option Qc) (eps z : Qc) (s : st) : st * run unit :=
  match fuel with
  | O => (s, None)
  | S fuel =>
      if time_left mt (s_cum s) then
        match update_model E s with
        | (s, Raise LinAlgError) => (s, Some (Ok tt))
        | (s, Raise e) => (s, Some (Raise e))
        | (s, Ok _) =>
            if iters_done mi (s_num s) || (Nat.ltb 1 (length (s_X s)) && last_two_close eps (s_X s)) then (s, Some (Ok tt))
            else
              match compute_next_evaluations E s None None with
              | (s, None) => (s, None)
              | (s, Some (Raise e)) => (s, Some (Raise e))
              | (s, Some (Ok b)) =>
                  let s := set_sugg s b in
                  match vstack (s_X s) b with
                  | Raise e => (s, Some (Raise e))
                  | Ok X' =>
                      match evaluate_objective_in E o ask (set_X s X') with
                      | (s, Some (Ok _)) =>
                          let s := set_cum (set_world s (s_hist s) (S (s_tick s))) (e_clock E (s_tick s) - z)%Qc in
                          loop_in fuel E o ask mi mt eps z (set_num s (S (s_num s)))
                      | (s, r) => (s, r)
                      end
                  end
              end
        end
      else (s, Some (Ok tt))
  end.
(** bo.py:125-129 the initial evaluation *)
Definition initial_evaluation_in (E : env) (o : objective) (ask : asking) (s : st) : st * run unit :=
  match s_Y s with
  | Some _ => (s, Some (Ok tt))
  | None =>
      match during E o ask s (s_X s) with
      | (s, true) => initial_evaluation E o s
      | (s, false) => (s, None)
      end
  end.
(** bo.py:78-167 run_optimization *)
Definition run_in (fuel : nat) (E : env) (ask : asking) (s : st) (max_iter max_time : lim) (eps : Qc)
  (ctx : option (list (string * Qc))) : st * run unit :=
  match e_obj E with
  | None => (s, Some (Raise InvalidConfigError))
  | Some o =>
      let s := set_ctx (set_params s None) ctx in
      match initial_evaluation_in E o ask s with
      | (s, Some (Ok _)) =>
          let z := e_clock E (s_tick s) in
          let s := set_world s (s_hist s) (S (s_tick s)) in
          let s := set_ynew (set_sugg (set_num (set_cum s q0) 0) (s_X s)) (s_Y s) in
          match loop_in fuel E o ask (fst (stop_conditions max_iter max_time)) (snd (stop_conditions max_iter max_time)) eps z s with
          | (s, Some (Ok _)) => let (s, r) := compute_results s in (s, Some r)
          | r => r
          end
      | r => r
      end
  end.
End Reentrant.
