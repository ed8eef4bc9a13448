(** Lemmas about the plots of the benchmark functions. *)
From Coq Require Import List ZArith Lia Reals Lra.
From Verif.Model Require Import Py Bench Plot BenchPlot.
From Verif.Spec Require Import BenchPlotSpec.
From Verif.Proof Require Import Num BenchP PlotP ConstraintsP.
Import ListNotations.
Local Open Scope R_scope.

Lemma arange100_nth lo hi i x : nth_error (arange100 lo hi) i = Some x <-> x = lo + INR i / 100 /\ x < hi.
Proof.
  unfold arange100. set (n := Z.to_nat (- Int_part (- ((hi - lo) * 100)))).
  destruct (base_Int_part (- ((hi - lo) * 100))) as [B1 B2]. set (k := Int_part (- ((hi - lo) * 100))) in *. rewrite nth_error_map.
  destruct (Nat.lt_ge_cases i n) as [L|L].
  - rewrite nth_error_seq by exact L. cbn [option_map plus].
    assert (NK : (Z.of_nat n = - k)%Z) by (unfold n in *; lia). assert (RK : INR n = - IZR k) by (rewrite INR_IZR_INZ, NK, opp_IZR; reflexivity).
    assert (IN : INR i + 1 <= INR n) by (rewrite <- S_INR; apply le_INR; lia).
    split; [intros E; injection E as <-; split; unfold Rdiv; lra|intros [-> _]; reflexivity].
  - assert (LN : length (seq 0 n) = n) by apply seq_length. replace (nth_error (seq 0 n) i) with (@None nat) by (symmetry; apply nth_error_None; lia).
    split; [discriminate|]. intros [-> H]. exfalso. apply le_INR in L.
    assert (NK : (- k <= Z.of_nat n)%Z) by (unfold n; lia). apply IZR_le in NK. rewrite opp_IZR, <- INR_IZR_INZ in NK. lra.
Qed.
Lemma arange100_length lo hi i : (i < length (arange100 lo hi))%nat <-> lo + INR i / 100 < hi.
Proof.
  rewrite <- nth_error_Some. split.
  - intros H. destruct (nth_error (arange100 lo hi) i) as [x|] eqn:E; [|congruence]. apply arange100_nth in E as [-> E]. exact E.
  - intros H. assert (E : nth_error (arange100 lo hi) i = Some (lo + INR i / 100)) by (apply arange100_nth; auto). congruence.
Qed.
(** a noise vector fits when there is one draw for each of the n points *)
Lemma values_column f (X : list (list R)) noise : match noise with None => True | Some l => length l = length X end ->
  exists ys, values f true X noise = map (fun y => [y]) ys /\ length ys = length X /\
    forall i x, nth_error X i = Some x -> exists e, drawn noise i e /\ nth_error ys i = Some (f x + e).
Proof.
  intros H. destruct noise as [l|]; unfold values, returned.
  - exists (map (fun p => fst p + snd p) (combine (map f X) l)). rewrite map_map. split; [reflexivity|]. split; [rewrite map_length, combine_length, map_length; lia|].
    intros i x N. destruct (nth_error l i) as [e|] eqn:E; [|apply nth_error_None in E; assert (nth_error X i <> None) as K by congruence; apply nth_error_Some in K; lia].
    exists e. split; [exact E|]. rewrite nth_error_map. clear H. revert l i N E. induction X as [|a X IH]; intros [|b l] [|i] N E; cbn in N, E |- *; try discriminate.
    + injection N as ->. injection E as ->. reflexivity.
    + now apply IH.
  - exists (map f X). split; [|split; [now rewrite map_length|]].
    + rewrite map_map. induction X as [|a X IH]; [reflexivity|]. cbn. f_equal; [f_equal; lra|exact IH].
    + intros i x N. exists 0. split; [reflexivity|]. rewrite nth_error_map, N. cbn. f_equal. lra.
Qed.
Lemma curves_column (X ys : list R) : length ys = length X -> curves X (map (fun y => [y]) ys) = Ok (combine X ys).
Proof.
  intros L. unfold curves. rewrite map_length, L, Nat.eqb_refl. revert ys L. induction X as [|x X IH]; intros [|y ys] L; try discriminate; [reflexivity|].
  cbn [map combine mapM fst snd bind]. rewrite IH by (now injection L). reflexivity.
Qed.
Lemma combine_nth2 {A B} (l : list A) (k : list B) i p : nth_error (combine l k) i = Some p <-> nth_error l i = Some (fst p) /\ nth_error k i = Some (snd p).
Proof.
  revert k i. induction l as [|a l IH]; intros [|b k] [|i]; cbn; try (split; [discriminate|intros [? ?]; discriminate]).
  - split; [intros E; injection E as <-; auto|intros [E1 E2]; injection E1 as ->; injection E2 as ->; destruct p; reflexivity].
  - apply IH.
Qed.
Lemma linspace100_nth lo hi i : (i < 100)%nat -> nth_error (linspace100 lo hi) i = Some (lo + INR i * ((hi - lo) / 99)).
Proof. intros H. unfold linspace100. rewrite nth_error_map, nth_error_seq by auto. reflexivity. Qed.
Lemma linspace100_length lo hi : length (linspace100 lo hi) = 100%nat.
Proof. unfold linspace100. now rewrite map_length, seq_length. Qed.
Lemma square100_spec l : length l = (100 * 100)%nat -> exists Z, square100 l = Ok Z /\ shaped 100 100 Z /\
  forall i j, (i < 100)%nat -> (j < 100)%nat -> entry Z i j = nth_error l (i * 100 + j).
Proof.
  intros L. unfold square100. replace (Nat.eqb (length l) (100 * 100)) with true by (symmetry; apply Nat.eqb_eq; exact L).
  eexists. split; [reflexivity|]. destruct (reshape_rows 100 100 l L) as [A1 A2]. rewrite Forall_forall in A2. split; [split; assumption|].
  intros i j I J. destruct (reshape_nth 100 100 l i j I J) as (r & E1 & E2). unfold entry. now rewrite E1.
Qed.
Lemma concat_column (ys : list R) : concat (map (fun y => [y]) ys) = ys.
Proof. induction ys as [|y ys IH]; [reflexivity|]. cbn. now f_equal. Qed.
