(** Choosing start points and the suggestion by acquisition values in double precision. *)
From Coq Require Import List ZArith Bool Reals Lra Lia Permutation.
From Flocq Require Import Core IEEE754.BinarySingleNaN.
From Verif.Model Require Import Py Float FloatAcq FloatAnchor AcqR.
From Verif.Spec Require Import FloatSpec RSpec FloatAcqSpec FloatAnchorSpec.
From Verif.Proof Require Import FloatP FloatStopP GaussP AcqP FloatRowP FloatAcqP FloatAnchorP.
From Verif.Props Require Import PFloatAcq.
Import ListNotations.
Local Open Scope R_scope.

(** C125: [num] different candidates become start points (all, if there are fewer), and no candidate left out has a smaller value than one that was
    taken; candidates with the value NaN are taken only when there is nothing else. *)
Theorem C125_starts : forall A (X : list A) scores order num, length scores = length X -> sorts scores order ->
  exists ys chosen, anchors_f X scores order num = Ok ys /\ NoDup chosen /\ length chosen = Nat.min (length X) num /\
    Forall2 (fun i y => nth_error X i = Some y) chosen ys /\
    forall i j a b, In i chosen -> (j < length X)%nat -> ~ In j chosen -> nth_error scores i = Some a -> nth_error scores j = Some b ->
      flt b a = false /\ (nan_p a = true -> nan_p b = true).
Proof.
  intros A X scores order num L S. destruct (anchors_spec X scores order num L S) as (ys & E & ch & N & Lc & _ & F & B). exists ys, ch.
  do 4 (split; [assumption|]). intros i j a b Hi Hj Nj Ha Hb. destruct (B i j a b Hi Hj Nj Ha Hb) as [K|[K1 K2]].
  - split; [now apply flt_nan_l | auto].
  - split; [exact K2 | congruence].
Qed.
Print Assumptions C125_starts.

(** Among the optimised points one with the smallest value is returned, unless the first has the value NaN: then that one is, whatever the others
    are. *)
Theorem C125_pick : forall A (p : A * float) pts, exists r, pick_f (p :: pts) = Ok r /\
  (nan_p (snd p) = true -> r = p) /\
  (nan_p (snd p) = false -> In r (p :: pts) /\ nan_p (snd r) = false /\ forall s, In s (p :: pts) -> flt (snd s) (snd r) = false).
Proof.
  intros A p pts. exists (pick_from p pts). destruct (pick_from_spec pts p) as [H1 H2]. split; [reflexivity|]. split; [exact H1|].
  intros N. destruct (H2 N) as (K1 & K2 & K3). auto.
Qed.
Print Assumptions C125_pick.

(** If the local optimiser returns nothing worse than its start, no candidate of the design has a smaller value than the suggestion, and the value
    of the suggestion is not NaN as soon as that of one candidate is not. *)
Theorem C125_suggestion : forall A (X : list A) score argsort local x v, (forall l, sorts l (argsort l)) -> never_worse score local ->
  (exists c, In c X /\ nan_p (score c) = false) -> optimize_f X score argsort local = Ok (x, v) ->
  v = score x /\ nan_p v = false /\ forall c, In c X -> flt (score c) v = false.
Proof. intros A. exact suggestion. Qed.
Print Assumptions C125_suggestion.

(** With expected improvement: if one candidate is feasible and predicted at least as good as the incumbent less the jitter, the suggestion is
    feasible, and its value is below 0. *)
Theorem C125_feasible : forall A L par fmin (B : beliefs A) X argsort local x v, libm_like L -> number par -> number fmin -> sound B ->
  (forall l, sorts l (argsort l)) -> never_worse (ei_score L par fmin B) local ->
  (exists c, In c X /\ promising L par fmin B c) -> optimize_f X (ei_score L par fmin B) argsort local = Ok (x, v) ->
  b_feasible B x = true /\ flt v f0 = true.
Proof. intros A L par fmin B X argsort local x v. exact (feasible_suggestion L par fmin B X argsort local x v). Qed.
Print Assumptions C125_feasible.

(** A sorting of the positions: insertion, NaN last. *)
Definition precedes (a b : float) : bool := nan_p b || (negb (nan_p a) && negb (flt b a)).
Fixpoint insert_at (l : list float) (i : nat) (o : list nat) : list nat :=
  match o with
  | [] => [i]
  | j :: o' => if precedes (nth i l f0) (nth j l f0) then i :: o else j :: insert_at l i o'
  end.
Definition sort_positions (l : list float) : list nat := fold_right (insert_at l) [] (seq 0 (length l)).
Lemma precedes_spec : forall a b, precedes a b = true <-> before a b.
Proof.
  intros a b. unfold precedes, before. destruct (nan_p a), (nan_p b), (flt b a); cbn; split; intros H; try reflexivity; try discriminate;
    try (left; reflexivity); try (right; split; reflexivity); destruct H as [H|[H H']]; discriminate.
Qed.
Lemma before_total : forall a b, before a b \/ before b a.
Proof.
  intros a b. unfold before. destruct (nan_p b) eqn:B; [left; left; reflexivity|]. destruct (nan_p a) eqn:A; [right; left; reflexivity|].
  destruct (flt b a) eqn:E; [|left; right; auto]. right. right. split; [reflexivity|]. apply flt_of_le; auto. apply flt_true_le in E; auto. lra.
Qed.
Lemma before_trans : forall a b c, before a b -> before b c -> before a c.
Proof.
  intros a b c [H|[H1 H2]] [K|[K1 K2]]; unfold before; auto; [congruence|]. destruct (nan_p c) eqn:C; [auto|]. right. split; [exact H1|].
  apply flt_false_le in H2; auto. apply flt_false_le in K2; auto. apply flt_of_le; auto. lra.
Qed.
Definition ordered (l : list float) (o : list nat) : Prop := ForallOrdPairs (fun i j => before (nth i l f0) (nth j l f0)) o.
Lemma insert_perm : forall l i o, Permutation (insert_at l i o) (i :: o).
Proof.
  intros l i. induction o as [|j o IH]; cbn; [apply Permutation_refl|]. destruct (precedes _ _); [apply Permutation_refl|].
  eapply perm_trans; [apply perm_skip; exact IH | apply perm_swap].
Qed.
Lemma insert_ordered : forall l i o, ordered l o -> ordered l (insert_at l i o).
Proof.
  intros l i. induction o as [|j o IH]; intros H; cbn [insert_at]; [constructor; constructor|]. inversion H as [|? ? H1 H2]; subst. destruct (precedes _ _) eqn:E.
  - apply precedes_spec in E. constructor; [|exact H]. constructor; [exact E|]. eapply List.Forall_impl; [|exact H1]. intros k K. cbn in K. eapply before_trans; eassumption.
  - constructor; [|apply IH; exact H2]. apply (Permutation_Forall (Permutation_sym (insert_perm l i o))). constructor; [|exact H1].
    destruct (before_total (nth j l f0) (nth i l f0)) as [K|K]; [exact K|]. apply precedes_spec in K. congruence.
Qed.
Lemma sort_positions_sorts : forall l, sorts l (sort_positions l).
Proof.
  intros l. unfold sort_positions. split.
  - generalize (seq 0 (length l)). induction l0 as [|i o IH]; cbn; [apply Permutation_refl|]. eapply perm_trans; [apply insert_perm | now apply perm_skip].
  - assert (O : ordered l (fold_right (insert_at l) [] (seq 0 (length l)))).
    { generalize (seq 0 (length l)). induction l0 as [|i o IH]; cbn; [constructor | now apply insert_ordered]. }
    intros p q i j a b Hpq Hi Hj Ha Hb. apply nth_error_nth with (d := f0) in Ha, Hb. subst a b.
    revert p q Hpq Hi Hj. induction O as [|k o Hk O IH]; intros p q Hpq Hi Hj; [destruct p; discriminate|].
    destruct q as [|q]; [lia|]. destruct p as [|p].
    + cbn in Hi, Hj. assert (k = i) by congruence. subst k. rewrite List.Forall_forall in Hk. apply Hk. eapply nth_error_In; exact Hj.
    + apply (IH p q); [lia | exact Hi | exact Hj].
Qed.
(** Three locations: 0 feasible at the mean 0, 1 infeasible at the mean -1, 2 feasible at the mean 5; all with deviation 1 and cost 2. *)
Definition three_places : beliefs nat := mk_beliefs (fun x => nth x [f0; of_Z (-1)] (of_Z 5)) (fun _ => of_Z 1) (fun x => negb (Nat.eqb x 1)) (fun _ => of_Z 2).
(** The hypotheses are met: the suggestion is the first location, although the mean of the infeasible one is smaller. *)
Example C125_nonvacuous : libm_like steps /\ sound three_places /\ (forall l, sorts l (sort_positions l)) /\
  promising steps f0 (of_Z 1) three_places 0%nat /\ never_worse (ei_score steps f0 (of_Z 1) three_places) (fun _ x => Ok x) /\
  exists v, optimize_f [2; 1; 0]%nat (ei_score steps f0 (of_Z 1) three_places) sort_positions (fun _ x => Ok x) = Ok (0%nat, v).
Proof.
  split; [exact steps_like|]. split.
  { intros x. destruct of1 as [A1 A2]. destruct (of_Z_ok 2 ltac:(cbn; lia)) as [B1 B2]. destruct (of_Z_ok (-1) ltac:(cbn; lia)) as [C1 _].
    destruct (of_Z_ok 5 ltac:(cbn; lia)) as [D1 _]. destruct f0_ok as [Z0 _]. split; [|split; [exact A1 | split; [exact B1 | cbn [three_places b_cost]; lra]]].
    destruct x as [|[|[|x]]]; [exact Z0 | exact C1 | exact D1 | exact D1]. }
  split; [exact sort_positions_sorts|]. split.
  { destruct C124_nonvacuous as (_ & N1 & N2 & N3 & _). destruct (of_Z_ok 2 ltac:(cbn; lia)) as [B1 B2].
    split; [reflexivity|]. split; [cbn [three_places b_cost]; rewrite B2; change 2 with (bpow radix2 1); apply bpow_le; lia|]. split; [exact N1|]. split; [exact N2 | exact N3]. }
  split. { intros k x0 x E N. assert (x0 = x) by congruence. subst. split; [exact N|]. apply flt_of_le; auto. lra. }
  assert (E : match optimize_f [2; 1; 0]%nat (ei_score steps f0 (of_Z 1) three_places) sort_positions (fun _ x => Ok x) with Ok (x, _) => x | Raise _ => 9%nat end = 0%nat)
    by (vm_compute; reflexivity).
  destruct (optimize_f _ _ _ _) as [[x v]|]; [exists v; now rewrite E | discriminate].
Qed.

(** Six locations a hundred deviations above the minimum, of which only the first is feasible *)
Definition far_away : beliefs nat := mk_beliefs (fun _ => of_Z 100) (fun _ => of_Z 1) (fun x => Nat.eqb x 0) (fun _ => of_Z 1).
(** That a feasible candidate of positive expected improvement is enough for a feasible suggestion is false: all six values are 0, a sorting may
    leave out the feasible location, and the suggestion is infeasible. *)
Theorem C125_refuted : exists order, (forall L, libm_like L -> sorts (map (ei_score L f0 f0 far_away) (seq 0 6)) order) /\
  (exists E, expectation 100 1 (improvement 0) E /\ 0 < E) /\ sound far_away /\ b_feasible far_away 0%nat = true /\
  forall L, libm_like L -> exists x v, optimize_f (seq 0 6) (ei_score L f0 f0 far_away) (fun _ => order) (fun _ x => Ok x) = Ok (x, v) /\ b_feasible far_away x = false.
Proof.
  exists [1; 2; 3; 4; 5; 0]%nat. destruct f0_ok as [Z0 V0]. destruct of1 as [Z1 V1]. destruct (of_Z_ok 100 ltac:(cbn; lia)) as [Zh Vh].
  assert (K : forall L x, libm_like L -> number (ei_score L f0 f0 far_away x) /\ val (ei_score L f0 f0 far_away x) = 0).
  { intros L x HL. assert (U : number (quantile_u f0 f0 (of_Z 100) (clipped (of_Z 1)))) by (vm_compute; reflexivity).
    assert (Lo : val (quantile_u f0 f0 (of_Z 100) (clipped (of_Z 1))) <= -50) by (apply at50; [exact U | vm_compute; reflexivity]).
    destruct (plateau L f0 f0 (of_Z 100) (of_Z 1) HL Z0 Z0 Zh Z1 U Lo) as [[A B] _].
    unfold ei_score. cbn [far_away b_mean b_dev b_feasible b_cost]. destruct (Nat.eqb x 0).
    - destruct (zero_form _ A B) as [b ->]. destruct b; split; reflexivity.
    - apply weighted_out; [exact A | lra]. }
  assert (Pl : forall L a b, libm_like L -> flt (ei_score L f0 f0 far_away a) (ei_score L f0 f0 far_away b) = false).
  { intros L a b HL. destruct (K L a HL) as [A1 A2]. destruct (K L b HL) as [B1 B2]. apply flt_of_le; [now apply not_nan | now apply not_nan|].
    unfold place. rewrite A1, B1, A2, B2. lra. }
  split.
  { intros L HL. split.
    - rewrite map_length, seq_length. cbn. apply (Permutation_app_comm [1; 2; 3; 4; 5]%nat [0]%nat).
    - intros p q i j a b _ _ _ Ha Hb. rewrite nth_error_map in Ha, Hb. destruct (nth_error (seq 0 6) i) as [x|]; [|discriminate]. destruct (nth_error (seq 0 6) j) as [y|]; [|discriminate].
      cbn [option_map] in Ha, Hb. apply Some_eq in Ha, Hb. subst a b. right. split; [apply not_nan, K, HL | now apply Pl]. }
  split; [eexists; split; [apply expected_improvement; lra | apply Rmult_lt_0_compat; [lra | apply h_pos]]|]. split; [intros x; repeat split; try assumption; cbn [far_away b_cost]; lra|]. split; [reflexivity|].
  intros L HL. exists 1%nat. eexists. split; [|reflexivity]. unfold optimize_f, anchors_f. rewrite map_length, seq_length.
  change (firstn (Nat.min 6 5) [1; 2; 3; 4; 5; 0]%nat) with [1; 2; 3; 4; 5]%nat. change (mapM (get (seq 0 6)) [1; 2; 3; 4; 5]%nat) with (Ok [1; 2; 3; 4; 5]%nat : res (list nat)).
  cbn [bind Optim.mapMi pick_f pick_from snd]. rewrite !(Pl L _ _ HL). reflexivity.
Qed.
Print Assumptions C125_refuted.
(** That the suggestion is no worse than every other optimised point is false: when the first one has the value NaN it is returned. *)
Theorem C125_refuted_nan : exists pts : list (nat * float), exists r p, pick_f pts = Ok r /\ In p pts /\ nan_p (snd r) = true /\ number (snd p).
Proof.
  exists [(0%nat, (B754_nan : float)); (1%nat, of_Z (-1))], (0%nat, (B754_nan : float)), (1%nat, of_Z (-1)). split; [reflexivity|].
  split; [right; left; reflexivity|]. split; [reflexivity | apply (of_Z_ok (-1)); cbn; lia].
Qed.
Print Assumptions C125_refuted_nan.
