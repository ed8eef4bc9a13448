(** C132: from the design to the suggestion in double precision.  Specification: Spec/FloatPipeSpec.v.  Model: Model/FloatPipe.v. *)
From Coq Require Import Reals List ZArith Bool Lia Lra Permutation.
From Flocq Require Import Core IEEE754.BinarySingleNaN.
From Verif.Model Require Import Py Float FloatRow FloatDup FloatAnchor Optim FloatPipe.
From Verif.Spec Require Import FloatSpec FloatRowSpec FloatDupSpec FloatAnchorSpec FloatPipeSpec.
From Verif.Proof Require Import Num FloatP FloatDupP FloatRowP FloatAnchorP FloatPipeP.
From Verif.Props Require Import PFloatDup PFloatAnchor.
Import ListNotations.
Local Open Scope R_scope.

(** Translating a configuration for the model and back gives the same numbers. *)
Theorem C132_encoding : forall ks row, fspace ks -> configuration ks row ->
  exists x row', unzip_f ks row = Ok x /\ fblocks fvalid ks x /\ zip_f ks x = Ok row' /\ same_values row' row.
Proof.
  intros ks row (_ & _ & F) C. destruct (unzip_ok ks row C) as (x & E & V). destruct (unzip_zip ks F row x C E) as (row' & Z & S). exists x, row'. auto.
Qed.
Print Assumptions C132_encoding.
(** Every encoded point stands for a configuration. *)
Theorem C132_decoding : forall ks x, fspace ks -> fblocks fvalid ks x -> exists row, zip_f ks x = Ok row /\ configuration ks row.
Proof. intros ks x (_ & _ & F). exact (zip_ok ks F x). Qed.
Print Assumptions C132_decoding.
(** Random designs on mixed spaces: as many rows as asked for, all of them configurations. *)
Theorem C132_design : forall ks u c n, fspace ks -> (forall lo hi, In (FCont lo hi) ks -> no_overflow (lo, hi)) -> (forall i k, unit_draw (u i k)) ->
  (forall i k dom, nth_error ks k = Some (FDisc dom) -> (c i k < length dom)%nat) -> (forall i k m, nth_error ks k = Some (FCat m) -> (c i k < m)%nat) ->
  exists rows, random_design_f ks u c n = Ok rows /\ length rows = n /\ Forall (configuration ks) rows.
Proof. exact design_ok. Qed.
Print Assumptions C132_design.

Lemma known_dup ks X x row : fspace ks -> Forall (configuration ks) X -> configuration ks row -> zip_f ks x = Ok row ->
  forall d, duplicate_of ks (Some X) x = Ok d -> (d = true <-> exists r, In r X /\ same_values r row).
Proof.
  intros (_ & W & _) CX C E d D. unfold duplicate_of in D. rewrite E in D. cbn [bind] in D. assert (is_duplicate_f X None None row = d) as <- by congruence.
  rewrite Forall_forall in CX. apply C118_numbers.
  - exact (configuration_numbers ks row W C).
  - intros r y I. exact (configuration_numbers ks r W (CX r I) y).
Qed.
(** A suggestion is a configuration, and with de-duplication none of the evaluated ones; there is none only if every row of the design was evaluated. *)
Theorem C132_suggestion : forall ks known a, fspace ks -> ordinary ks a -> (forall X, known = Some X -> Forall (configuration ks) X) ->
  (exists row, suggest_f ks known (a_score a) (a_argsort a) (a_local a) (a_design a) = Ok row /\ configuration ks row /\
     forall X r, known = Some X -> In r X -> ~ same_values r row) \/
  (suggest_f ks known (a_score a) (a_argsort a) (a_local a) (a_design a) = Raise FullyExplored /\
     forall row, In row (a_design a) -> exists X r, known = Some X /\ In r X /\ same_values r row).
Proof.
  intros ks known a SP (CD & SO & NN) CX. pose proof (proj2 (proj2 SP)) as F. destruct (suggest_ok ks known SP (a_score a) (a_argsort a) (a_local a) (a_design a) SO NN CD) as (X & E & [(R & D)|(x & row & R & V & Z & U)]).
  - right. split; [exact R|]. intros row I. apply mapM_ok_Forall2 in E. rewrite Forall_forall in CD. specialize (CD row I).
    assert (HX : exists x, In x X /\ unzip_f ks row = Ok x). { clear - E I. induction E as [|r x des X H E IH]; [destruct I|]. destruct I as [->|I]; [exists x; split; [now left|exact H]|]. destruct (IH I) as (y & J & K). exists y. split; [now right|exact K]. }
    destruct HX as (x & J & K). specialize (D x J). destruct known as [kn|]; [|discriminate D]. destruct (unzip_zip ks F row x CD K) as (row' & Z & S).
    destruct (unzip_ok ks row CD) as (x' & K' & V). assert (x' = x) as -> by congruence. destruct (zip_ok ks F x V) as (row2 & Z2 & C2). assert (row2 = row') as -> by congruence.
    destruct (proj1 (known_dup ks kn x row' SP (CX kn eq_refl) C2 Z true D) eq_refl) as (r & Ir & Sr). exists kn, r. split; [reflexivity|]. split; [exact Ir|]. unfold same_values in *. congruence.
  - left. exists row. split; [exact R|]. destruct (zip_ok ks F x V) as (row2 & Z2 & C2). assert (row2 = row) as -> by congruence. split; [exact C2|].
    intros kn r -> Ir Sr. pose proof (proj2 (known_dup ks kn x row SP (CX kn eq_refl) C2 Z false U)) as H. discriminate H. eauto.
Qed.
Print Assumptions C132_suggestion.

(** Any number of iterations: everything evaluated is a configuration, earlier rows stay as they are, and with de-duplication no configuration comes twice. *)
Theorem C132_run : forall ks dd A n X X', fspace ks -> (forall Z, ordinary ks (A Z)) -> Forall (configuration ks) X -> acquire_f ks dd A n X = Ok X' ->
  (exists new, X' = X ++ new /\ length new = n) /\ Forall (configuration ks) X' /\ (dd = true -> NoDup (map (map val) X) -> NoDup (map (map val) X')).
Proof.
  intros ks dd A n. induction n as [|n IH]; intros X X' SP O CX E; cbn [acquire_f] in E.
  - apply Ok_inj in E. subst X'. split; [exists []; split; [now rewrite app_nil_r|reflexivity]|]. auto.
  - destruct (C132_suggestion ks (if dd then Some X else None) (A X) SP (O X)) as [(row & S & C & D)|(S & _)].
    { intros Z HZ. destruct dd; [injection HZ as <-; exact CX|discriminate HZ]. }
    2: { rewrite S in E. discriminate E. }
    rewrite S in E. cbn [bind] in E. destruct (IH (X ++ [row]) X' SP O) as ((new & EX & L) & CX' & ND); [apply Forall_app; split; [exact CX|repeat constructor; exact C]|exact E|].
    split; [exists (row :: new); split; [rewrite EX, <- app_assoc; reflexivity|cbn; congruence]|]. split; [exact CX'|]. intros -> N. apply ND; [reflexivity|]. rewrite map_app. cbn [map].
    apply (Permutation_NoDup (l := map val row :: map (map val) X)); [apply Permutation_cons_append|]. constructor; [|exact N]. intros I. apply in_map_iff in I as (r & Sr & Ir). exact (D X r eq_refl Ir Sr).
Qed.
Print Assumptions C132_run.
(** Without de-duplication every iteration finds a suggestion; with it a run fails only as fully explored. *)
Theorem C132_run_ends : forall ks dd A n X, fspace ks -> (forall Z, ordinary ks (A Z)) -> (forall Z, a_design (A Z) <> []) -> Forall (configuration ks) X ->
  (exists X', acquire_f ks dd A n X = Ok X') \/ (dd = true /\ acquire_f ks dd A n X = Raise FullyExplored).
Proof.
  intros ks dd A n. induction n as [|n IH]; intros X SP O ND CX; cbn [acquire_f]; [left; eauto|].
  destruct (C132_suggestion ks (if dd then Some X else None) (A X) SP (O X)) as [(row & S & C & _)|(S & D)].
  { intros Z HZ. destruct dd; [injection HZ as <-; exact CX|discriminate HZ]. }
  - rewrite S. cbn [bind]. apply IH; auto. apply Forall_app. split; [exact CX|repeat constructor; exact C].
  - rewrite S. right. split; [|reflexivity]. destruct dd; [reflexivity|]. exfalso. destruct (a_design (A X)) as [|r d] eqn:ED; [exact (ND X ED)|]. destruct (D r (or_introl eq_refl)) as (? & ? & H & _). discriminate H.
Qed.
Print Assumptions C132_run_ends.
(** If the local optimizer returns NaN, NaN is evaluated, and with de-duplication it is evaluated again. *)
Theorem C132_nan_refuted : forall lo hi x0, inside (lo, hi) x0 ->
  let A := fun _ : list (list float) => mk_acquiring (fun _ => f0) sort_positions (fun _ _ => Ok [B754_nan]) [[x0]] in
  acquire_f [FCont lo hi] true A 2 [] = Ok [[B754_nan]; [B754_nan]] /\ ~ configuration [FCont lo hi] [B754_nan].
Proof.
  intros lo hi x0 I A. assert (R : round_continuous lo hi B754_nan = B754_nan) by (unfold round_continuous; destruct lo, hi; reflexivity).
  assert (S : forall X : list (list float), (forall r, In r X -> r = [B754_nan]) -> suggest_f [FCont lo hi] (Some X) (fun _ => f0) sort_positions (fun _ _ => Ok [B754_nan]) [[x0]] = Ok [B754_nan]).
  { intros X HX.
    assert (Q : forall y, is_duplicate_f X None None [y] = false).
    { intros y. unfold is_duplicate_f, unique_points_f. cbn [any_f]. rewrite !app_nil_r. clear - HX. induction X as [|r X IH]; [reflexivity|]. cbn [existsb]. rewrite IH by (intros r' J; apply HX; now right).
      rewrite (HX r (or_introl eq_refl)). cbn [tuple_eq]. replace (feq y B754_nan) with false; [reflexivity|]. destruct y as [s|s| |s m e b]; try reflexivity; destruct s; reflexivity. }
    assert (D : forall y, duplicate_of [FCont lo hi] (Some X) [y] = Ok false) by (intros y; cbn; now rewrite Q).
    assert (T : forall k x, apply_f [FCont lo hi] (Some X) (fun _ _ => Ok [B754_nan]) k [x] = Ok [B754_nan]).
    { intros k x. unfold apply_f. rewrite D. cbn [bind]. unfold round_optimum_f. cbn [fround_from fround slice fwidth skipn firstn get nth_error bind concat app]. rewrite R. cbn [bind]. rewrite D. reflexivity. }
    unfold suggest_f. cbn [mapM unzip_f to_model bind app fresh_rows]. rewrite D. cbn [bind]. unfold optimize_f, anchors_f. cbn [map length]. change (sort_positions [f0]) with [0%nat]. cbn [Nat.min firstn mapM get nth_error bind mapMi].
    rewrite T. reflexivity. }
  split.
  - assert (G : forall n (X : list (list float)), (forall r, In r X -> r = [B754_nan]) -> acquire_f [FCont lo hi] true A (Datatypes.S n) X = acquire_f [FCont lo hi] true A n (X ++ [[B754_nan]])).
    { intros n X HX. cbn [acquire_f]. assert (E : suggest_f [FCont lo hi] (Some X) (a_score (A X)) (a_argsort (A X)) (a_local (A X)) (a_design (A X)) = Ok [B754_nan]) by exact (S X HX). rewrite E. reflexivity. }
    rewrite G by (intros r []). cbn [app]. rewrite G by (intros r [<-|[]]; reflexivity). reflexivity.
  - intros H. inversion H as [|? ? ? ? V _]; subst. destruct V as [V _]. discriminate V.
Qed.
Print Assumptions C132_nan_refuted.

(** A mixed space, a generator over it and a local optimizer that leaves the box. *)
Definition ks3 : list fkind := [FCont (of_Z (-1)) (of_Z 1); FDisc [of_Z 0; of_Z 2]; FCat 3].
Definition A3 (X : list (list float)) : acquiring :=
  mk_acquiring (fun _ => f0) sort_positions (fun _ _ => Ok [B754_infinity false; of_Z 5; of_Z 0; of_Z 7; of_Z 1]) [[of_Z 0; of_Z 0; of_Z 1]; [of_Z 1; of_Z 0; of_Z 2]].
Lemma ks3_space : fspace ks3.
Proof.
  split; [discriminate|]. split.
  - repeat constructor; try reflexivity; try discriminate; cbn [fst snd].
    + destruct (of_Z_ok (-1)) as [_ ->]; [cbn; lia|]. destruct (of_Z_ok 1) as [_ ->]; [cbn; lia|]. lra.
    + intros v [<-|[<-|[]]]; reflexivity.
  - intros n [H|[H|[H|[]]]]; try discriminate H. injection H as <-. cbn. lia.
Qed.
Lemma value_in lo hi x : (lo <= x <= hi)%Z -> (Z.abs lo <= 2 ^ 53)%Z -> (Z.abs hi <= 2 ^ 53)%Z -> fvalue (FCont (of_Z lo) (of_Z hi)) (of_Z x).
Proof.
  intros L A B. destruct (of_Z_ok lo A) as [_ V1]. destruct (of_Z_ok hi B) as [_ V2]. destruct (of_Z_ok x) as [N V3]; [lia|]. split; [exact N|]. cbn [fst snd]. rewrite V1, V2, V3. split; apply IZR_le; lia.
Qed.
Lemma A3_ordinary X : ordinary ks3 (A3 X).
Proof.
  split; [|split].
  - assert (T : forall i, (i < 3)%nat -> fvalue (FCat 3) (of_Z (Z.of_nat i))).
    { intros i L. exists i. split; [exact L|]. destruct (of_Z_ok (Z.of_nat i)) as [N V]; [lia|]. split; [exact N|]. rewrite INR_IZR_INZ. exact V. }
    assert (R : forall a b i, (-1 <= a <= 1)%Z -> In b [of_Z 0; of_Z 2] -> (i < 3)%nat -> configuration ks3 [of_Z a; b; of_Z (Z.of_nat i)]).
    { intros a b i Ha Hb Hi. constructor; [apply value_in; cbn; lia|]. constructor; [exact Hb|]. constructor; [exact (T i Hi)|constructor]. }
    constructor; [exact (R 0%Z _ 1%nat ltac:(lia) (or_introl eq_refl) ltac:(lia))|]. constructor; [exact (R 1%Z _ 2%nat ltac:(lia) (or_introl eq_refl) ltac:(lia))|constructor].
  - exact sort_positions_sorts.
  - intros k x0. eexists. split; [reflexivity|]. change [B754_infinity false; of_Z 5; of_Z 0; of_Z 7; of_Z 1] with ([B754_infinity false] ++ [of_Z 5] ++ [of_Z 0; of_Z 7; of_Z 1] ++ []).
    repeat constructor. intros x [<-|[]]. reflexivity.
Qed.
(** The rows 1, 2, 1 and then, the optimum being known, 0, 0, 1. *)
Example C132_nonvacuous : fspace ks3 /\ (forall X, ordinary ks3 (A3 X) /\ a_design (A3 X) <> []) /\
  exists r1 r2, acquire_f ks3 true A3 2 [] = Ok [r1; r2] /\ same_values r1 [of_Z 1; of_Z 2; of_Z 1] /\ same_values r2 [of_Z 0; of_Z 0; of_Z 1] /\
  acquire_f ks3 true A3 4 [] = Raise FullyExplored.
Proof.
  split; [exact ks3_space|]. split; [intros X; split; [apply A3_ordinary|discriminate]|].
  assert (K : exists X, acquire_f ks3 true A3 2 [] = Ok X /\ (forallb (fun p => tuple_eq (fst p) (snd p)) (combine X [[of_Z 1; of_Z 2; of_Z 1]; [of_Z 0; of_Z 0; of_Z 1]]) && Nat.eqb (length X) 2)%bool = true).
  { destruct (acquire_f ks3 true A3 2 []) as [X|e] eqn:E.
    - exists X. split; [reflexivity|]. assert (G : match acquire_f ks3 true A3 2 [] with Ok X => (forallb (fun p => tuple_eq (fst p) (snd p)) (combine X [[of_Z 1; of_Z 2; of_Z 1]; [of_Z 0; of_Z 0; of_Z 1]]) && Nat.eqb (length X) 2)%bool | Raise _ => false end = true) by (vm_compute; reflexivity). rewrite E in G. exact G.
    - assert (G : match acquire_f ks3 true A3 2 [] with Ok X => true | Raise _ => false end = true) by (vm_compute; reflexivity). rewrite E in G. discriminate G. }
  destruct K as (X & E & G). apply andb_prop in G as [G L]. apply Nat.eqb_eq in L. destruct X as [|r1 [|r2 [|? ?]]]; try discriminate L. exists r1, r2. split; [exact E|].
  cbn [combine forallb fst snd] in G. apply andb_prop in G as [G1 G]. apply andb_prop in G as [G2 _].
  assert (T : forall a b, tuple_eq a b = true -> (forall x, In x b -> number x) -> same_values a b).
  { intros a b H N. apply tuple_eq_spec in H. unfold same_values. induction H as [|x y a b H _ IH]; [reflexivity|]. cbn [map]. f_equal; [|apply IH; intros z I; apply N; now right].
    destruct H as [(_ & _ & V)|(s & _ & ->)]; [exact V|]. discriminate (N _ (or_introl eq_refl)). }
  split; [|split].
  - apply T; [exact G1|]. intros x [<-|[<-|[<-|[]]]]; reflexivity.
  - apply T; [exact G2|]. intros x [<-|[<-|[<-|[]]]]; reflexivity.
  - assert (Q : match acquire_f ks3 true A3 4 [] with Raise FullyExplored => true | _ => false end = true) by (vm_compute; reflexivity). destruct (acquire_f ks3 true A3 4 []) as [X|[]]; try discriminate Q. reflexivity.
Qed.
