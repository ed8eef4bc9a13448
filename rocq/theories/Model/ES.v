(** Entropy search: GPyOpt/util/epmgp.py and GPyOpt/acquisitions/ES.py.  Definitions only.

    Matrices and vectors of a fixed size are functions of the indices; a definition that needs the size takes it as an
    argument.  Real numbers instead of floating point. *)
From Coq Require Import Reals List Bool Arith.
From Coquelicot Require Import Rbar.
From Verif.Model Require Import AcqR.
Import ListNotations.
Local Open Scope R_scope.

Definition vect := nat -> R.
Definition matr := nat -> nat -> R.
(** np.sum over an axis of length n *)
Fixpoint rsum (n : nat) (f : nat -> R) : R := match n with O => 0 | S n' => rsum n' f + f n' end.
(** np.max of f 0 .. f n *)
Fixpoint rmax (n : nat) (f : nat -> R) : R := match n with O => f O | S n' => Rmax (rmax n' f) (f n) end.
Definition dot (n : nat) (a b : vect) : R := rsum n (fun i => a i * b i).
Definition mvec (n : nat) (A : matr) (b : vect) : vect := fun i => dot n (A i) b.

(** ---- epmgp.py:276-288 log_relative_gauss: e, logPhi, exit_flag *)
Definition log_relative_gauss (z : R) : R * R * Z :=
  if Rlt_dec z (-6) then (1, - (10 ^ 12), (-1)%Z)
  else if Rlt_dec 6 z then (0, 0, 1%Z)
  else
    let logphi := - (/ 2) * (z * z + (ln 2 + ln PI)) in
    let logPhi := ln (/ 2 * erfc (- z / sqrt 2)) in
    (exp (logphi - logPhi), logPhi, 0%Z).

(** epmgp.py:48 np.finfo(np.float32).eps *)
Definition eps32 : R := / 2 ^ 23.
(** A message between the marginals: precision and precision times mean; logS None is -inf, d None is NaN. *)
Record factor := mk_factor { fa_M : vect; fa_V : matr; fa_p : R; fa_mp : R; fa_logS : option R; fa_d : option R }.
(** ---- epmgp.py:211-272 lt_factor.  Simplification: no NaN arises from divisions (lines 219-220, 243-246). *)
Definition lt_factor (s l : nat) (M : vect) (V : matr) (mp p gamma : R) : factor :=
  let cVc := (V l l - 2 * V s l + V s s) / 2 in
  let Vc := fun i => (V i l - V i s) / sqrt 2 in
  let cM := (M l - M s) / sqrt 2 in
  let cVnic := Rmax (cVc / (1 - p * cVc)) 0 in
  let cmni := cM + cVnic * (p * cM - mp) in
  let z := cmni / sqrt (cVnic + / 10 ^ 25) in
  let '(e, lP, exit_flag) := log_relative_gauss z in
  if Z.eqb exit_flag 0 then
    let alpha := e / sqrt cVnic in
    let beta := alpha * (alpha * cVnic + cmni) in
    let r := beta / (1 - beta) in
    let pnew := r / cVnic in
    let mpnew := r * (alpha + cmni / cVnic) + alpha in
    let dp := Rmax (- p + eps32) (gamma * (pnew - p)) in
    let dmp := Rmax (- mp + eps32) (gamma * (mpnew - mp)) in
    let d := Rmax dmp dp in
    let pnew := p + dp in
    let mpnew := mp + dmp in
    mk_factor (fun i => M i + (dmp - cM * dp) / (1 + dp * cVc) * Vc i)
              (fun i j => V i j - dp / (1 + dp * cVc) * (Vc i * Vc j))
              pnew mpnew
              (Some (lP - / 2 * (ln beta - ln pnew - ln cVnic) + (alpha * alpha) / (2 * beta) * cVnic)) (Some d)
  else if Z.eqb exit_flag (-1) then mk_factor (fun _ => 0) (fun _ _ => 0) 0 0 None None
  else
    let dp := - p in
    let dmp := - mp in
    mk_factor (fun i => M i + (dmp - cM * dp) / (1 + dp * cVc) * Vc i)
              (fun i j => V i j - dp / (1 + dp * cVc) * (Vc i * Vc j))
              0 0 (Some 0) (Some (Rmax dmp dp)).

(** ---- epmgp.py:122-208 min_faktor.  The state of the sweeps: marginal, messages. *)
Record sweep := mk_sweep { sw_M : vect; sw_V : matr; sw_P : vect; sw_MP : vect; sw_logS : nat -> option R }.
Definition fset {A} (f : nat -> A) (i : nat) (a : A) : nat -> A := fun j => if Nat.eqb j i then a else f j.
(** lines 138-150: one pass over the factors i, i+1, ..; None when d is NaN *)
Fixpoint one_sweep (todo i k : nat) (gamma : R) (w : sweep) (diff : R) : option (sweep * R) :=
  match todo with
  | O => Some (w, diff)
  | S todo' =>
      let l := if Nat.ltb i k then i else S i in
      let q := lt_factor k l (sw_M w) (sw_V w) (sw_MP w i) (sw_P w i) gamma in
      match fa_d q with
      | None => None
      | Some d => one_sweep todo' (S i) k gamma
                    (mk_sweep (fa_M q) (fa_V q) (fset (sw_P w) i (fa_p q)) (fset (sw_MP w) i (fa_mp q)) (fset (sw_logS w) i (fa_logS q)))
                    (diff + Rabs d)
      end
  end.
(** lines 136-153: at most [count] passes *)
Fixpoint sweeps (count D k : nat) (gamma : R) (w : sweep) : option sweep :=
  match count with
  | O => Some w
  | S count' =>
      match one_sweep (D - 1) 0 k gamma w 0 with
      | None => None
      | Some (w', diff) => if Rlt_dec (Rabs diff) (/ 1000) then Some w' else sweeps count' D k gamma w'
      end
  end.

(** lines 168-176: the matrix C without column k, R and r.  [P], [MP] the messages. *)
Definition Cmat (k : nat) (i j : nat) : R :=
  let l := if Nat.ltb j k then j else S j in
  if Nat.eqb i k then -1 / sqrt 2 else if Nat.eqb i l then 1 / sqrt 2 else 0.
Definition Rmat (k : nat) (P : vect) : matr := fun i j => sqrt (P j) * Cmat k i j.
Definition rvec (D k : nat) (MP : vect) : vect := fun i => rsum (D - 1) (fun j => MP j * Cmat k i j).
Definition mpm (D : nat) (P MP : vect) : R := rsum (D - 1) (fun i => if Req_EM_T (MP i) 0 then 0 else MP i * MP i / P i).
(** lines 179-183: IRSR, and A from [inv], the inverse of IRSR (np.linalg.solve, external) *)
Definition IRSR (D k : nat) (P : vect) (Sigma : matr) : matr := fun a b =>
  (if Nat.eqb a b then 1 else 0) + rsum D (fun i => rsum D (fun j => Rmat k P i a * Sigma i j * Rmat k P j b)).
Definition Amat (D k : nat) (P : vect) (inv : matr) : matr :=
  let A0 := fun i j => rsum (D - 1) (fun a => rsum (D - 1) (fun b => Rmat k P i a * inv a b * Rmat k P j b)) in
  fun i j => / 2 * (A0 j i + A0 i j).
(** lines 180, 184, 185, 193-194: logZ as a function of Mu; [logdet] is dts, external *)
Definition bvec (D : nat) (Mu : vect) (Sigma : matr) (r : vect) : vect := fun i => Mu i + mvec D Sigma r i.
Definition logZ (D : nat) (Mu : vect) (Sigma : matr) (r : vect) (A : matr) (logdet s mp : R) : R :=
  let b := bvec D Mu Sigma r in
  / 2 * (dot D r (mvec D Sigma r) - dot D b (mvec D A b) - logdet) + dot D Mu r + s - / 2 * mp.
(** lines 198-200 *)
Definition dlogZdMu (D : nat) (Mu : vect) (Sigma : matr) (r : vect) (A : matr) : vect :=
  fun i => r i - mvec D A (bvec D Mu Sigma r) i.
Definition dlogZdMudMu (A : matr) : matr := fun i j => - A i j.
(** lines 196, 202-206 *)
Definition dlogZdSigma_full (D : nat) (Mu : vect) (Sigma : matr) (r : vect) (A : matr) : matr :=
  let b := bvec D Mu Sigma r in
  let Ab := mvec D A b in
  let btA := fun j => rsum D (fun i => b i * A i j) in
  fun i j => - A i j - 2 * (r i * Ab j) + r i * r j + btA i * Ab j.
Definition halved (G : matr) : matr := fun i j => / 2 * (G i j + G j i - (if Nat.eqb i j then G i i else 0)).
(** np.triu_indices(D) *)
Definition triu_indices (D : nat) : list (nat * nat) := flat_map (fun i => map (fun j => (i, j)) (seq i (D - i))) (seq 0 D).
(** line 207: np.rot90(S, k=2)[np.triu_indices(D)][::-1] *)
Definition packed (D : nat) (S : matr) : list R :=
  rev (map (fun p => S (D - 1 - fst p)%nat (D - 1 - snd p)%nat) (triu_indices D)).
(** ES.py:148 dVdx[np.triu(np.ones((N, N))).T.astype(bool)]: the entries of the lower triangle, row by row *)
Definition masked (N : nat) (V : matr) : list R :=
  flat_map (fun i => map (fun j => V i j) (filter (fun j => Nat.leb j i) (seq 0 N))) (seq 0 N).

(** ---- epmgp.py:92-100 joint_min, renormalisation.  [raw] are the logP of min_faktor (infinities are replaced by -500). *)
Definition fix_inf (raw : nat -> Rbar) : vect := fun k => match raw k with Finite r => r | _ => -500 end.
Definition log_sum (D : nat) (logP : vect) : R :=
  let maxLogP := rmax (D - 1) logP in maxLogP + ln (rsum D (fun k => exp (logP k - maxLogP))).
Definition renormalised (D : nat) (logP : vect) : vect := fun k => logP k - log_sum D logP.
(** np.rot90(A, 1) and np.rot90(A, 3) of a matrix with [m] rows and [n] columns *)
Definition rot90_1 (m n : nat) (A : matr) : matr := fun i j => A j (n - 1 - i)%nat.
Definition rot90_3 (m n : nat) (A : matr) : matr := fun i j => A (m - 1 - j)%nat i.
(** lines 108-109: Zm, Zs; [n] columns *)
Definition Zvec (D n : nat) (logP : vect) (J : matr) : vect :=
  let Z := rsum D (fun k => exp (logP k)) in
  let B := fun i j => exp (logP j) * rot90_1 D n J i j in
  fun i => rsum D (fun k => rot90_3 n D B k i) / Z.
(** lines 111-112 *)
Definition adjusted (D n : nat) (logP : vect) (J : matr) : matr := fun k i => J k i - Zvec D n logP J i.
(** lines 114-118; Zm.T * Zm is elementwise on a vector and broadcast over the rows *)
Definition adjusted2 (D : nat) (logP : vect) (J : matr) (H : nat -> matr) : nat -> matr :=
  let Z := rsum D (fun k => exp (logP k)) in
  let Zm := Zvec D D logP J in
  let gg := fun i j => rsum D (fun k => (H k i j + J k i * J k j) * exp (logP k)) / Z in
  fun k i j => H k i j + (- gg i j + Zm j * Zm j).

(** ---- epmgp.py:122-208 min_faktor with gamma = 1.  [solve] stands for np.linalg.solve and [ldet] for the logarithm of the
    determinant through cholesky (with its two fallbacks), both external functions of the matrix IRSR.  d starts as NaN (line 135),
    so with fewer than two points there is no factor and the result is the one for NaN. *)
Definition start (Mu : vect) (Sigma : matr) : sweep := mk_sweep Mu Sigma (fun _ => 0) (fun _ => 0) (fun _ => Some 0).
Definition min_faktor (solve : matr -> matr) (ldet : matr -> R) (D : nat) (Mu : vect) (Sigma : matr) (k : nat) : Rbar * vect * matr * list R :=
  match (if Nat.leb D 1 then None else sweeps 50 D k 1 (start Mu Sigma)) with
  | None => (m_infty, fun _ => 0, fun _ _ => 0, map (fun _ => 0) (triu_indices D))
  | Some w =>
      let r := rvec D k (sw_MP w) in
      let B := IRSR D k (sw_P w) Sigma in
      let A := Amat D k (sw_P w) (solve B) in
      let s := rsum (D - 1) (fun i => match sw_logS w i with Some v => v | None => 0 end) in
      (Finite (logZ D Mu Sigma r A (ldet B) s (mpm D (sw_P w) (sw_MP w))), dlogZdMu D Mu Sigma r A, dlogZdMudMu A,
       packed D (halved (dlogZdSigma_full D Mu Sigma r A)))
  end.
(** ---- epmgp.py:54-119 joint_min with derivatives: logP, dlogPdMu, dlogPdSigma, dlogPdMudMu *)
Definition joint_min (solve : matr -> matr) (ldet : matr -> R) (D : nat) (Mu : vect) (Sigma : matr) : vect * matr * matr * (nat -> matr) :=
  let a := min_faktor solve ldet D Mu Sigma in
  let logP := fix_inf (fun k => fst (fst (fst (a k)))) in
  let J := fun k => snd (fst (fst (a k))) in
  let H := fun k => snd (fst (a k)) in
  let Sg := fun k i => nth i (snd (a k)) 0 in
  (renormalised D logP, adjusted D D logP J, adjusted D (length (triu_indices D)) logP Sg, adjusted2 D logP J H).

(** ---- ES.py:140-170 _compute_acq for one row.  [N] representer points, [S] samples [W]. *)
Record es_par := mk_es { es_log : vect; es_logP : vect; es_dMu : matr; es_dSigma : nat -> list R; es_dMudMu : nat -> matr }.
(** ES.py:175-207 _innovations: [cov] the covariances with x, [stdev] the deviation at x *)
Definition innovations (cov : vect) (stdev : R) : vect * matr :=
  let dm := fun i => cov i / stdev in (dm, fun i j => - (dm i * dm j)).
Definition ldot (a b : list R) : R := fold_right Rplus 0 (vzip Rmult a b).
Definition predicted_logP (N : nat) (E : es_par) (W : vect) (dm : vect) (dv : matr) (s : nat) : vect := fun k =>
  let trace_term := rsum N (fun i => rsum N (fun j => es_dMudMu E k i j * (dm i * dm j))) in
  es_logP E k + (ldot (es_dSigma E k) (masked N dv) + / 2 * trace_term) + dot N (es_dMu E k) dm * W s.
Definition es_acq (N S : nat) (E : es_par) (W : vect) (cov : vect) (stdev : R) : R :=
  let '(dm, dv) := innovations cov stdev in
  rsum S (fun s => let p := renormalised N (predicted_logP N E W dm dv s) in
                   rsum N (fun k => exp (p k) * (p k + es_log E k))) / INR S.

(** ---- ES.py:55-72 the default proposal density (logarithm): [ei] is EI at x; the logarithm of 0 is -inf. *)
Definition prop_func (bounds : list (R * R)) (ei : R) (x : list R) : Rbar :=
  if forallb (fun p => let '((lo, hi), v) := p in (if Rle_dec lo v then true else false) && (if Rle_dec v hi then true else false)) (combine bounds x)
  then (let v := if Rlt_dec ei 0 then 0 else ei in if Req_EM_T v 0 then m_infty else Finite (ln v)) else m_infty.
(** ---- The life of the object: the parameters are computed at the first evaluation and kept (ES.py:80-83, 114-118, 131-132).
    [B] the surrogate's state, [upd] _update_parameters (a function of the surrogate at that time and of the random numbers
    drawn so far), [val] the value at x given parameters and surrogate. *)
Inductive es_op (X B : Type) := EsEval (x : X) | EsModel (b : B).
Arguments EsEval {X B} x. Arguments EsModel {X B} b.
Fixpoint es_run {X B Par V : Type} (upd : B -> Par) (val : Par -> B -> X -> V) (ops : list (es_op X B)) (par : option Par) (b : B)
  : list V * option Par * B :=
  match ops with
  | [] => ([], par, b)
  | EsModel b' :: r => es_run upd val r par b'
  | EsEval x :: r =>
      let p := match par with Some p => p | None => upd b end in
      let '(vs, par', b') := es_run upd val r (Some p) b in (val p b x :: vs, par', b')
  end.
