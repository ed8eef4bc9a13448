(** What the plots show: GPyOpt/plotting/plots_bo.py and GPyOpt/core/bo.py:269-307.  Definitions only.  Colours, labels, files and windows
    are not described. *)
From Coq Require Import String List ZArith QArith Qcanon Bool Reals.
From Verif.Model Require Import Py Space Design Optim Objective BO Util.
Import ListNotations.
Local Open Scope nat_scope.

(** plt.plot(xs, ys): the points of the curve; ValueError when the two sequences have different lengths *)
Definition curve (xs : list nat) (ys : vec) : res (list (nat * Qc)) :=
  if Nat.eqb (length xs) (length ys) then Ok (combine xs ys) else Raise ValueError.
(** plots_bo.py:149-177 plot_convergence: the two curves.  Simplification: the first one is given by the squares of the distances. *)
Definition plot_convergence (Xdata : mat) (best_Y : vec) : res (list (nat * Qc) * list (nat * Qc)) :=
  let n := length Xdata in
  let aux := map (fun p => sqdist (fst p) (snd p)) (combine (skipn 1 Xdata) (firstn (n - 1) Xdata)) in
  c1 <- curve (seq 0 (n - 1)) aux ;; c2 <- curve (seq 0 n) best_Y ;; Ok (c1, c2).

Section Object.
Context {M : Type}.
(** bo.py:300-307 plot_convergence: Y_best is an attribute only after a run has come to its end *)
Definition bo_plot_convergence (s : st M) : res (list (nat * Qc) * list (nat * Qc)) :=
  match s_report s with None => Raise AttributeError | Some (y_best, _, _) => plot_convergence (s_X s) y_best end.

(** bo.py:269-297 plot_acquisition.  [columns m] is the number of columns of the data in the surrogate, None when no surrogate was built
    yet (model.model is None): then a copy is trained on X as it is, without encoding, and thrown away.  The arguments are evaluated from
    left to right.  [draw1], [draw2]: the drawing itself in one and in two dimensions; nothing is drawn in any other. *)
Definition plot_acquisition (E : env M) (columns : M -> option nat) (draw1 draw2 : list (Qc * Qc) -> mat -> run unit) (s : st M) : st M * run unit :=
  let plotted :=
    match columns (s_model s) with
    | Some d => Ok d
    | None =>
        match s_Y s with
        | None => Raise OutOfModel
        | Some Y =>
            Ym <- normalized (e_norm E) Y ;;
            match e_update E (s_model s) (s_X s) Ym with
            | (_, Some e) => Raise e
            | (m, None) => match columns m with Some d => Ok d | None => Raise AttributeError end
            end
        end
    end in
  match plotted, get_bounds (e_space E) with
  | Raise e, _ => (s, Some (Raise e))
  | Ok _, Raise e => (s, Some (Raise e))
  | Ok d, Ok bounds =>
      match suggest_next_locations E s None None None with
      | (s, None) => (s, None)
      | (s, Some (Raise e)) => (s, Some (Raise e))
      | (s, Some (Ok b)) =>
          (s, if Nat.eqb d 1 then draw1 bounds b else if Nat.eqb d 2 then draw2 bounds b else Some (Ok tt))
      end
  end.
End Object.

Local Open Scope R_scope.
(** np.arange(lo, hi, 0.001): ceil((hi - lo) / 0.001) points *)
Definition arange (lo hi : R) : list R :=
  map (fun i => lo + INR i * / 1000) (seq 0 (Z.to_nat (- Int_part (- ((hi - lo) * 1000))))).
(** plots_bo.py:60, 108 acqu_normalized.  None is nan (0 / 0), which is not drawn; min of nothing raises ValueError. *)
Definition acqu_normalized (acqu : list R) : res (list (option R)) :=
  match acqu with
  | [] => Raise ValueError
  | _ =>
      let shifted := map (fun a => - a - lmin (map Ropp acqu)) acqu in
      Ok (map (fun x => if Req_EM_T (lmax shifted) 0 then None else Some (x / lmax shifted)) shifted)
  end.
(** plots_bo.py:57-77 the plot in one dimension: the lower and upper limit of the vertical axis and the heights of the acquisition curve
    over the grid.  [m] and [v] are the predicted means and variances on the grid. *)
Definition plot1 (m v acqu : list R) : res (R * R * list (option R)) :=
  a <- acqu_normalized acqu ;;
  let lower := map (fun p => fst p - 196 / 100 * sqrt (snd p)) (combine m v) in
  let upper := map (fun p => fst p + 196 / 100 * sqrt (snd p)) (combine m v) in
  let factor := lmax upper - lmin lower in
  Ok (lmin lower - / 4 * factor, lmax upper + 5 / 100 * factor,
      map (option_map (fun x => 2 / 10 * factor * x - Rabs (lmin lower) - / 4 * factor)) a).

(** np.linspace(lo, hi, 200) *)
Definition linspace200 (lo hi : R) : list R := map (fun i => lo + INR i * ((hi - lo) / 199)) (seq 0 200).
(** plots_bo.py:103-106 X: the points of np.meshgrid(X1, X2), row by row *)
Definition mesh (X1 X2 : list R) : list (R * R) := flat_map (fun b => map (fun a => (a, b)) X1) X2.
(** reshape((200,200)): consecutive pieces of length [n] *)
Fixpoint reshape {A} (rows n : nat) (l : list A) : list (list A) :=
  match rows with O => [] | S rows => firstn n l :: reshape rows n (skipn n l) end.
(** plots_bo.py:103-109, 136 the matrix handed to plt.contourf(X1, X2, Z) for the acquisition *)
Definition contour (acq : R * R -> R) (b1 b2 : R * R) : res (list (list (option R))) :=
  a <- acqu_normalized (map acq (mesh (linspace200 (fst b1) (snd b1)) (linspace200 (fst b2) (snd b2)))) ;;
  Ok (reshape 200 200 a).
