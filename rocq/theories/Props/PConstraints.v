(** C111: constraints as expressions.  Specification: Spec/ConstraintsSpec.v.  Model: Model/Constraints.v. *)
From Coq Require Import String List ZArith QArith Qcanon Bool.
From Verif.Model Require Import Py Space Ieee Constraints.
From Verif.Spec Require Import SpaceSpec Examples ConstraintsSpec.
From Verif.Proof Require Import Num Dec ConstraintsP.
Import ListNotations.
Local Open Scope nat_scope.
Local Open Scope string_scope.
Local Open Scope list_scope.

(** An expression with one number per location, whatever the functions in it, is decided for every location separately: 1 where it is <= 0
    and 0 where it is not (or is NaN). *)
Theorem C111_each_location : forall w x e, Forall (fun row => List.length row = w) x -> columns_exist w e -> kind_of e = Some PerLocation ->
  exists I, indicator w x e = Ok I /\ Forall2 (fun row i => (i = 1%Qc /\ holds_at row e) \/ (i = 0%Qc /\ ~ holds_at row e)) x I.
Proof.
  intros w x e W C K. eexists. split; [apply indicator_good; [exact W|split; [now left|exact C]]|].
  clear. induction x as [|row x IH]; cbn [map]; constructor; [|exact IH]. destruct (le0 (the_one (value_at row e))) eqn:L.
  - left. split; [reflexivity|]. now apply le0_holds.
  - right. split; [reflexivity|]. intros H. apply le0_holds in H. congruence.
Qed.
Print Assumptions C111_each_location.
(** indicator_constraints with such expressions is indicator_constraints with functions of one row, so C08 and everything proved about
    constrained spaces applies to spaces whose constraints are written as expressions. *)
Theorem C111_as_functions : forall ds es sp x w, design_space ds (Some (map as_function es)) = Ok sp -> x <> [] ->
  Forall (fun row => List.length row = w) x -> Forall (fun e => kind_of e = Some PerLocation /\ columns_exist w e) es ->
  indicator_expressions w es x = indicator_constraints sp x.
Proof.
  intros ds es sp x w D X W G. unfold indicator_expressions, indicator_constraints. rewrite atleast_2d_ne by exact X.
  assert (S : sp_constraints sp = Some (map as_function es)).
  { revert D. unfold design_space. destruct (translate_space ds); cbn [bind]; [|discriminate]. destruct (expand_config_space ds); cbn [bind]; [|discriminate].
    destruct (mapM expand_var a); cbn [bind]; [|discriminate]. intros D. injection D as <-. cbn [sp_constraints]. rewrite map_map. reflexivity. }
  rewrite S. apply indicators_good; [exact W| |apply repeat_length].
  eapply Forall_impl; [|exact G]. intros e [K C]. split; [now left|exact C].
Qed.
Print Assumptions C111_as_functions.
(** What is refused: constants, one number per coordinate unless there is only one coordinate, columns and rows that do not exist, and a
    reduction along axis 1 of what has one number per location already. *)
Theorem C111_refused : forall w x e, Forall (fun row => List.length row = w) x ->
  (columns_exist w e -> kind_of e = Some Constant -> indicator w x e = Raise AttributeError) /\
  (columns_exist w e -> kind_of e = Some PerCoordinate -> w <> 1 -> x <> [] -> indicator w x e = Raise ValueError) /\
  (forall i, e = ECol i -> ~ columns_exist w e -> indicator w x e = Raise IndexError) /\
  (forall i, e = ERow i \/ (exists j, e = EAt i j) -> ~ (- Z.of_nat (List.length x) <= i < Z.of_nat (List.length x))%Z -> indicator w x e = Raise IndexError) /\
  (forall g a, e = ERed g a -> columns_exist w a -> kind_of a = Some Constant \/ kind_of a = Some PerLocation -> indicator w x e = Raise ValueError).
Proof.
  intros w x e W. split; [intros C; apply (indicator_refuses w x e W C)|]. split; [intros C; apply (indicator_refuses w x e W C)|].
  split; [intros i -> C; exact (missing_column w x i C _ eq_refl)|]. split.
  - intros i [->|[j ->]] H; now apply missing_row.
  - intros g a -> C K. now apply no_axis.
Qed.
Print Assumptions C111_refused.
(** x[i] is accepted exactly when there are as many locations as coordinates, and then the k-th location is judged by coordinate k of row i. *)
Theorem C111_single_row : forall w x i, Forall (fun row => List.length row = w) x -> (- Z.of_nat (List.length x) <= i < Z.of_nat (List.length x))%Z ->
  indicator w x (ERow i) =
    if Nat.eqb w (List.length x) then Ok (map (fun v => if qcle v q0 then q1 else q0) (nth (Z.to_nat (if (i <? 0)%Z then i + Z.of_nat (List.length x) else i)%Z) x []))
    else Raise ValueError.
Proof. exact single_row. Qed.
Print Assumptions C111_single_row.
Theorem C111_one_coordinate : forall x e, Forall (fun row => List.length row = 1) x -> columns_exist 1 e -> kind_of e = Some PerCoordinate ->
  indicator 1 x e = Ok (map (fun row => if le0 (the_one (value_at row e)) then q1 else q0) x).
Proof. intros x e W C K. apply indicator_good; [exact W|]. split; [right; now split|exact C]. Qed.
Print Assumptions C111_one_coordinate.
(** An expression that mentions a single row, x[0], is not decided for each location: with as many locations as coordinates it is accepted
    silently, and the answer for a location depends on the others and on its place. *)
Theorem C111_single_rows_refuted : exists e x x' I I', kind_of e = None /\
  indicator 2 x e = Ok I /\ indicator 2 x' e = Ok I' /\ nth 1 x [] = nth 1 x' [] /\ nth 1 I 0%Qc <> nth 1 I' 0%Qc.
Proof.
  exists (ERow 0), [[z 1; z 1]; [z 2; z 2]], [[z 1; z (-1)]; [z 2; z 2]], [0%Qc; 0%Qc], [0%Qc; 1%Qc].
  split; [reflexivity|]. split; [vmeq|]. split; [vmeq|]. split; [reflexivity|]. cbn [nth]. intros H. discriminate.
Qed.
Print Assumptions C111_single_rows_refuted.
(** A column and the whole matrix are combined along the wrong axis: in x - x[:,0] the second location's first coordinate is subtracted from
    the second coordinate of the first location. *)
Definition minus (a b : num) : num := match a, b with Fin u, Fin v => Fin (u - v)%Qc | _, _ => NaN end.
Theorem C111_column_with_matrix_refuted : kind_of (EBin minus EX (ECol 0)) = None /\
  forall a b c d, ceval 2 [[a; b]; [c; d]] (EBin minus EX (ECol 0)) = Ok (AMat 2 [[Fin (a - a)%Qc; Fin (b - c)%Qc]; [Fin (c - a)%Qc; Fin (d - c)%Qc]]).
Proof. split; reflexivity. Qed.
Print Assumptions C111_column_with_matrix_refuted.

(** x[:,0] * x[:,-1] - 3 on two locations, and on the space of two continuous variables. *)
Definition times (a b : num) : num := match a, b with Fin u, Fin v => Fin (u * v)%Qc | _, _ => NaN end.
Definition hyperbola : cexpr := EBin minus (EBin times (ECol 0) (ECol (-1))) (ENum (Fin (z 3))).
Example C111_nonvacuous : columns_exist 2 hyperbola /\ kind_of hyperbola = Some PerLocation /\
  indicator_expressions 2 [hyperbola] [[z 1; z 2]; [z 2; z 2]] = Ok [1%Qc; 0%Qc] /\
  (exists sp, design_space [with_dim (d_cont "x" (z 0) (z 4)) 2] (Some (map as_function [hyperbola])) = Ok sp /\
     indicator_constraints sp [[z 1; z 2]; [z 2; z 2]] = Ok [1%Qc; 0%Qc]) /\
  kind_of (ENum (Fin (z 3))) = Some Constant /\ kind_of (EUn (fun v => v) EX) = Some PerCoordinate /\ ~ columns_exist 2 (ECol 2).
Proof.
  split; [cbn; split; [split|]; try exact I; split; reflexivity || (intros H; discriminate H)|]. split; [reflexivity|]. split; [vmeq|]. split.
  - exists (the_space [with_dim (d_cont "x" (z 0) (z 4)) 2] (Some (map as_function [hyperbola]))). split; [vm_compute; reflexivity|vmeq].
  - split; [reflexivity|]. split; [reflexivity|]. intros [_ H]. discriminate H.
Qed.
