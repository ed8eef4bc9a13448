(** The surrogate models: hyper-parameter samples, construction, copies, warping indices. *)
From Coq Require Import String List Bool Arith Lia ZArith.
From Verif.Model Require Import Py Space Objective Call Models.
From Verif.Spec Require Import ModelSpec.
From Verif.Proof Require Import BOP.
Import ListNotations.
Local Open Scope nat_scope.

Lemma Forall2_impl {A B} (R S : A -> B -> Prop) : (forall a b, R a b -> S a b) -> forall l l', Forall2 R l l' -> Forall2 S l l'.
Proof. intros H l l' F. induction F; constructor; auto. Qed.

(** ---------------------------------------------------------------- samples *)
Theorem hmc_count {P} (sample : nat -> list (list P)) ns nb si : (forall n, length (sample n) = n) ->
  match hmc_samples sample ns nb si with
  | Ok l => length l = ns /\ 1 <= si /\ forall k, k < ns -> nth_error l k = nth_error (sample (nb + ns * si)) (nb + k * si)
  | Raise e => si = 0 /\ e = ValueError
  end.
Proof.
  intros L. unfold hmc_samples. cbv zeta. destruct (Nat.eqb_spec si 0) as [->|N]; [auto|]. set (ss := sample (nb + ns * si)).
  assert (LS : length ss = nb + ns * si) by apply L. assert (S1 : 1 <= si) by lia.
  assert (T : forall k, nth_error (stride si nb ss) k = nth_error ss (nb + k * si)) by (intros; now apply stride_nth).
  assert (LE : length (stride si nb ss) = ns).
  { apply Nat.le_antisymm.
    - destruct (Nat.le_gt_cases (length (stride si nb ss)) ns) as [|G]; [assumption|]. exfalso.
      assert (Q : nth_error (stride si nb ss) ns <> None) by (apply nth_error_Some; lia). rewrite T in Q. apply nth_error_Some in Q. nia.
    - destruct (Nat.le_gt_cases ns (length (stride si nb ss))) as [|G]; [assumption|]. exfalso.
      assert (Q : nth_error (stride si nb ss) (ns - 1) = None) by (apply nth_error_None; lia). rewrite T in Q. apply nth_error_None in Q. nia. }
  split; [exact LE|]. split; [exact S1|]. intros k _. apply T.
Qed.

Section Loop.
Context {P B : Type}.
Lemma overlay_fills mask : forall (s p q : list P), overlay mask s p = Ok q <-> fills mask s p q.
Proof.
  induction mask as [|[] mask IH]; intros s p q; destruct p as [|x p]; cbn [overlay].
  - destruct s; split; intros H; try discriminate; try (inversion H; fail). + injection H as <-. constructor. + now inversion H.
  - split; intros H; [discriminate|inversion H].
  - split; intros H; [discriminate|inversion H].
  - destruct s as [|v s]; [split; intros H; [discriminate|inversion H]|].
    destruct (overlay mask s p) as [q'|e] eqn:O; cbn [bind].
    + apply IH in O. split; intros H; [injection H as <-; now constructor|]. inversion H; subst. assert (E : Ok q' = Ok q0) by (transitivity (overlay mask s p); [symmetry|]; apply IH; assumption). congruence.
    + split; intros H; [discriminate|]. inversion H; subst. assert (overlay mask s p = Ok q0) by now apply IH. congruence.
  - split; intros H; [discriminate|inversion H].
  - destruct (overlay mask s p) as [q'|e] eqn:O; cbn [bind].
    + apply IH in O. split; intros H; [injection H as <-; now constructor|]. inversion H; subst. assert (E : Ok q' = Ok q0) by (transitivity (overlay mask s p); [symmetry|]; apply IH; assumption). congruence.
    + split; intros H; [discriminate|]. inversion H; subst. assert (overlay mask s p = Ok q0) by now apply IH. congruence.
Qed.
Lemma assign_used fixes (s p q : list P) : assign fixes s p = Ok q <-> used fixes s p q.
Proof.
  unfold assign, used. destruct fixes as [mask|]; [apply overlay_fills|]. destruct (Nat.eqb_spec (length s) (length p)); split; intros H; try discriminate; try tauto.
  - injection H as <-. auto. - destruct H as [-> _]. reflexivity.
Qed.
(** A later sample is laid over what an earlier one left: the same as laying it over the original parameters. *)
Lemma fills_over mask (s p q : list P) : fills mask s p q -> forall s' q', fills mask s' q q' <-> fills mask s' p q'.
Proof.
  induction 1 as [|m s p q v x H IH|m s p q x H IH]; intros s' q'.
  - reflexivity.
  - split; intros K; inversion K; subst; constructor; now apply IH.
  - split; intros K; inversion K; subst; constructor; now apply IH.
Qed.
Lemma used_over fixes (s p q : list P) : used fixes s p q -> forall s' q', used fixes s' q q' <-> used fixes s' p q'.
Proof.
  unfold used. destruct fixes as [mask|]; [apply fills_over|]. intros [-> E] s' q'. rewrite E. reflexivity.
Qed.
Lemma loop_ok fixes (pr : list P -> res B) samples : forall p q bs, sample_loop fixes pr samples p = (q, Ok bs) ->
  Forall2 (fun s b => exists u, used fixes s p u /\ pr u = Ok b) samples bs.
Proof.
  induction samples as [|s rest IH]; intros p q bs H; cbn [sample_loop] in H.
  - injection H as _ <-. constructor.
  - destruct (assign fixes s p) as [u|e] eqn:A; [|discriminate]. apply assign_used in A.
    destruct (pr u) as [b|e] eqn:R; [|discriminate]. destruct (sample_loop fixes pr rest u) as [q' [bs'|e]] eqn:L; [|discriminate].
    injection H as _ <-. constructor; [eauto|]. apply IH in L. eapply Forall2_impl; [|exact L].
    intros s' b' (u' & U & E). exists u'. split; [|exact E]. now apply (used_over fixes s p u A).
Qed.
Lemma loop_raise fixes (pr : list P -> res B) samples : forall p q e, sample_loop fixes pr samples p = (q, Raise e) ->
  q = p \/ exists s, In s samples /\ used fixes s p q.
Proof.
  induction samples as [|s rest IH]; intros p q e H; cbn [sample_loop] in H; [discriminate|].
  destruct (assign fixes s p) as [u|e'] eqn:A; [|injection H as <- _; now left]. apply assign_used in A.
  destruct (pr u) as [b|e'] eqn:R; [|injection H as <- _; right; exists s; split; [now left|exact A]].
  destruct (sample_loop fixes pr rest u) as [q' [bs'|e']] eqn:L; [discriminate|]. injection H as <- _. right.
  apply IH in L. destruct L as [->|(s' & I & U)]; [exists s; split; [now left|exact A]|]. exists s'. split; [now right|]. now apply (used_over fixes s p u A).
Qed.
Lemma loop_complete fixes (pr : list P -> res B) samples : forall p bs, Forall2 (fun s b => exists u, used fixes s p u /\ pr u = Ok b) samples bs ->
  exists q, sample_loop fixes pr samples p = (q, Ok bs).
Proof.
  induction samples as [|s rest IH]; intros p bs H; inversion H as [|? b ? bs' (u & U & R) T]; subst; cbn [sample_loop]; [eauto|].
  pose proof U as A. apply assign_used in A. rewrite A, R.
  destruct (IH u bs') as [q ->]; [|eauto]. eapply Forall2_impl; [|exact T]. intros s' b' (u' & U' & E). exists u'. split; [|exact E]. now apply (used_over fixes s p u U).
Qed.
Theorem over_hmc_ok fixes (pr : list P -> res B) samples ps p' bs :
  over_hmc fixes pr samples ps = (p', Ok bs) <->
  p' = ps /\ Forall2 (fun s b => exists q, used fixes s ps q /\ pr q = Ok b) samples bs.
Proof.
  unfold over_hmc. split.
  - destruct (sample_loop fixes pr samples ps) as [q [bs'|e]] eqn:L; [|discriminate]. intros H. injection H as <- <-. split; [reflexivity|]. eapply loop_ok; eauto.
  - intros [-> F]. destruct (loop_complete _ _ _ _ _ F) as [q ->]. reflexivity.
Qed.
Theorem over_hmc_raise fixes (pr : list P -> res B) samples ps p' e :
  over_hmc fixes pr samples ps = (p', Raise e) -> p' = ps \/ exists s, In s samples /\ used fixes s ps p'.
Proof.
  unfold over_hmc. destruct (sample_loop fixes pr samples ps) as [q [bs'|e']] eqn:L; [discriminate|]. intros H. injection H as <- <-. eapply loop_raise; eauto.
Qed.
End Loop.
Theorem over_hmc_crash : exists (fixes : option (list bool)) (pr : list nat -> res nat) samples ps p' e,
  over_hmc fixes pr samples ps = (p', Raise e) /\ p' <> ps.
Proof.
  exists None, (fun p => match p with [2] => Raise LinAlgError | _ => Ok 0 end), [[1]; [2]; [3]], [7], [2], LinAlgError. split; [reflexivity|discriminate].
Qed.

(** ---------------------------------------------------------------- GPModel *)
Section GP.
Context {K N F D : Type}.
Notation gpmodel := (gpmodel K N F D).
Theorem updates_spec (g : gpmodel) d0 ds : gp_model g = None ->
  let g' := updates g (d0 :: ds) in
  same_settings g g' /\ gp_kernel g' = None /\
  exists m, gp_model g' = Some m /\ b_data m = last ds d0 /\ b_kern m = first_kernel g d0 /\
    b_inducing m = (if gp_sparse g then Some (gp_inducing g) else None) /\
    b_noise m = (if gp_sparse g then None else Some (gp_noise g)) /\ b_mean m = gp_meanf g /\ b_exact m = gp_exact g /\
    b_opts m = concat (repeat (one_opt g) (S (length ds))).
Proof.
  intros M0. cbv zeta. unfold updates.
  induction ds as [|d ds IH] using rev_ind.
  - cbn [fold_left]. unfold updateModel. rewrite M0. unfold create_model, with_gpy, same_settings, first_kernel, one_opt. cbn.
    destruct (gp_sparse g), (gp_iters g); cbn; (split; [repeat split; reflexivity|]); (split; [reflexivity|]); eexists; repeat split; try reflexivity; now rewrite app_nil_r || reflexivity.
  - change (d0 :: ds ++ [d]) with ((d0 :: ds) ++ [d]). rewrite fold_left_app. cbn [fold_left].
    change (fold_left updateModel ds (updateModel g d0)) with (fold_left updateModel (d0 :: ds) g).
    destruct IH as (SS & KN & m & GM & DA & KE & IN & NO & ME & EX & OP). set (g1 := fold_left updateModel (d0 :: ds) g) in *.
    destruct SS as (S1 & S2 & S3 & S4 & S5 & S6 & S7 & S8 & S9 & S10).
    unfold updateModel. rewrite GM. unfold with_gpy. cbn [gp_model gp_kernel gp_iters gp_restarts gp_optimizer].
    assert (OE : one_opt g1 = one_opt g) by (unfold one_opt; now rewrite S3, S4, S5).
    rewrite app_length. cbn [length]. replace (S (length ds + 1)) with (S (length ds) + 1) by lia. rewrite repeat_app, concat_app.
    assert (R1 : concat (repeat (one_opt g) 1) = one_opt g1) by (rewrite OE; cbn [repeat concat]; apply app_nil_r). rewrite R1, <- OP.
    unfold one_opt. rewrite last_last.
    clearbody g1. rewrite KN.
    destruct (Nat.ltb 0 (gp_iters g1)); cbn [gp_model gp_kernel]; (split; [unfold same_settings; cbn; auto 12|]); (split; [reflexivity|]); eexists; repeat split; try reflexivity; try assumption. cbn. now rewrite app_nil_r.
Qed.

Theorem copy_spec (g : gpmodel) m : gp_model g = Some m ->
  exists c mc, copy g = Ok c /\ gp_model c = Some mc /\ b_data mc = b_data m /\ b_kern mc = CopyOf (b_kern m) /\
    gp_noise c = gp_noise g /\ gp_exact c = gp_exact g /\ gp_optimizer c = gp_optimizer g /\ gp_iters c = gp_iters g /\ gp_restarts c = gp_restarts g /\ gp_verbose c = gp_verbose g /\ gp_ARD c = gp_ARD g /\
    b_noise mc = Some (gp_noise g) /\ b_exact mc = gp_exact g /\ b_inducing mc = None /\ b_mean mc = None.
Proof.
  intros E. unfold copy. rewrite E. unfold create_model, updateModel, with_gpy. cbn.
  destruct (gp_iters g); cbn; do 2 eexists; repeat split; reflexivity.
Qed.
(** A copy is of the same kind exactly when the original is neither sparse nor has a mean function. *)
Theorem copy_kind (g : gpmodel) d0 ds m c mc : gp_model g = None -> gp_model (updates g (d0 :: ds)) = Some m -> copy (updates g (d0 :: ds)) = Ok c -> gp_model c = Some mc ->
  (same_gp m mc <-> gp_sparse g = false /\ gp_meanf g = None).
Proof.
  intros G0 GM CP CM. pose proof (updates_spec g d0 ds G0) as (SS & _ & m' & GM' & _ & _ & IN & NO & ME & EX & _). rewrite GM in GM'. injection GM' as <-.
  destruct (copy_spec _ m GM) as (c' & mc' & CP' & CM' & _ & _ & _ & _ & _ & _ & _ & _ & _ & NO' & EX' & IN' & ME').
  rewrite CP in CP'. injection CP' as <-. rewrite CM in CM'. injection CM' as <-.
  destruct SS as (S1 & S2 & _). unfold same_gp. rewrite IN, NO, ME, EX, IN', ME', NO', EX', S1, S2. split.
  - intros (A & B & _ & _). destruct (gp_sparse g); [discriminate|]. now rewrite B.
  - intros [-> ->]. auto.
Qed.
End GP.
Theorem mcmc_copy_fails : mcmc_copy = Raise TypeError.
Proof. vm_compute. reflexivity. Qed.

(** ---------------------------------------------------------------- warping indices *)
Definition xnumeric (v : xvar) : bool := numeric (x_kind v).
Lemma xnumeric_spec v : xnumeric v = true <-> numerical v.
Proof. unfold xnumeric, numeric, numerical, is_continuous, is_discrete. destruct (x_kind v); cbn; split; intros; try discriminate; auto; tauto. Qed.
Fixpoint positions (xs : list xvar) (i : nat) : list nat :=
  match xs with [] => [] | v :: r => (if xnumeric v then [i] else []) ++ positions r (S i) end.
Definition columns (xs : list xvar) : list nat := concat (map x_idx_mod (filter xnumeric xs)).

Lemma positions_app a : forall b i, positions (a ++ b) i = positions a i ++ positions b (i + length a).
Proof.
  induction a as [|v a IH]; intros b i; cbn [app positions length]; [now rewrite Nat.add_0_r|].
  rewrite IH, app_assoc. do 2 f_equal. lia.
Qed.
Lemma warping_dims_positions nm xs : (forall v, In v xs -> xnumeric v = nm) -> forall i, positions xs i = warping_dims nm (length xs) i.
Proof.
  induction xs as [|v xs IH]; intros H i; cbn [positions length warping_dims]; [reflexivity|].
  rewrite (H v (or_introl eq_refl)), IH; [reflexivity|]. intros; apply H; now right.
Qed.
Lemma expand_kinds v xs : expand_var v = Ok xs -> is_bandit (v_kind v) = false ->
  length xs = v_dim v /\ forall x, In x xs -> x_kind x = v_kind v /\ xnumeric x = numeric (v_kind v).
Proof.
  unfold expand_var. destruct (v_kind v) eqn:K; cbn; intros H NB; try discriminate; injection H as <-;
    (split; [now rewrite map_length, seq_length|]); intros x I; apply in_map_iff in I; destruct I as (j & <- & _); unfold xnumeric; cbn; auto.
Qed.
Lemma warping_expanded vs : forall xs i, mapM expand_var vs = Ok xs -> existsb (fun v => is_bandit (v_kind v)) vs = false ->
  warping_from vs i = positions (concat xs) i.
Proof.
  induction vs as [|v vs IH]; intros xs i H NB; cbn [mapM] in H; [injection H as <-; reflexivity|].
  destruct (expand_var v) as [x|] eqn:E; cbn [bind] in H; [|discriminate]. destruct (mapM expand_var vs) as [xr|] eqn:M; cbn [bind] in H; [|discriminate]. injection H as <-.
  cbn [existsb] in NB. apply orb_false_elim in NB. destruct NB as [NB1 NB2]. destruct (expand_kinds v x E NB1) as [L KX].
  cbn [warping_from concat]. rewrite positions_app, L. rewrite (warping_dims_positions (numeric (v_kind v)) x), L by (intros; now apply KX). f_equal. apply IH; auto.
Qed.
Lemma warping_bandits vs : forall i, forallb (fun v => is_bandit (v_kind v)) vs = true -> warping_from vs i = [].
Proof.
  induction vs as [|v vs IH]; intros i H; [reflexivity|]. cbn [forallb] in H. apply andb_prop in H. destruct H as [H1 H2]. cbn [warping_from]. rewrite IH by exact H2.
  rewrite app_nil_r. destruct (v_kind v); try discriminate. cbn. generalize i. induction (v_dim v) as [|d ID]; intros j; cbn; auto.
Qed.
(** set_indices keeps the kinds *)
Lemma set_indices_kinds xs : forall co cm, map x_kind (set_indices xs co cm) = map x_kind xs.
Proof. induction xs as [|v xs IH]; intros co cm; cbn [set_indices]; [reflexivity|]. destruct (x_kind v) eqn:K; cbn [map]; rewrite IH; cbn [x_kind]; now rewrite K. Qed.
Lemma positions_kinds a : forall b i, map x_kind a = map x_kind b -> positions a i = positions b i.
Proof. induction a as [|v a IH]; intros [|w b] i H; try discriminate; [reflexivity|]. cbn [map] in H. injection H as H1 H2. cbn [positions]. unfold xnumeric. rewrite H1, (IH b) by exact H2. reflexivity. Qed.
Lemma columns_none xs : (forall v, In v xs -> xnumeric v = false) -> columns xs = [] /\ forall i, positions xs i = [].
Proof.
  induction xs as [|v xs IH]; intros H; [now split|]. destruct (IH ltac:(intros; apply H; now right)) as [A B].
  unfold columns in *. cbn [filter positions]. rewrite (H v (or_introl eq_refl)). split; [exact A|]. intros i. cbn. apply B.
Qed.
Definition okind (k : kind) : Prop := match k with KCat cats => length cats <> 1 | _ => False end.
Lemma spread_kind v : spread v <-> okind (x_kind v). Proof. reflexivity. Qed.
Definition sorted (xs : list xvar) : Prop := forall a v b, xs = a ++ v :: b -> spread v -> forall w, In w b -> ~ numerical w.
Lemma sorted_tail v xs : sorted (v :: xs) -> sorted xs.
Proof. intros H a w b E. apply (H (v :: a) w b). now rewrite E. Qed.
Lemma sorted_kinds xs ys : map x_kind xs = map x_kind ys -> sorted xs -> sorted ys.
Proof.
  intros E H a v b EY SP w W NW. assert (K : exists a' v' b', xs = a' ++ v' :: b' /\ map x_kind a' = map x_kind a /\ x_kind v' = x_kind v /\ map x_kind b' = map x_kind b).
  { rewrite EY in E. rewrite map_app in E. cbn [map] in E. clear - E. revert xs E. induction a as [|x a IH]; intros [|y xs] E; cbn in E; try discriminate.
    - injection E as E1 E2. exists [], y, xs. auto.
    - injection E as E1 E2. destruct (IH xs E2) as (a' & v' & b' & -> & A & V & B). exists (y :: a'), v', b'. cbn. rewrite A, E1. auto. }
  destruct K as (a' & v' & b' & -> & _ & KV & KB). apply (In_nth_error) in W. destruct W as [k W].
  assert (W' : exists w', nth_error b' k = Some w' /\ x_kind w' = x_kind w).
  { pose proof (f_equal (fun l => nth_error l k) KB) as Q. cbn beta in Q. rewrite !nth_error_map, W in Q. destruct (nth_error b' k) as [w'|]; [|discriminate]. injection Q as Q. eauto. }
  destruct W' as (w' & I & KW). apply nth_error_In in I. apply (H a' v' b' eq_refl) with w'; [|exact I|]; [unfold spread; rewrite KV; exact SP|unfold numerical; rewrite KW; exact NW].
Qed.
Lemma positions_columns xs : forall co cm, sorted xs -> positions xs cm = columns (set_indices xs co cm).
Proof.
  induction xs as [|v xs IH]; intros co cm H; [reflexivity|].
  assert (T : forall x r, columns (x :: r) = (if xnumeric x then x_idx_mod x else []) ++ columns r) by (intros; unfold columns; cbn [filter]; destruct (xnumeric x); reflexivity).
  cbn [positions set_indices]. destruct (x_kind v) as [lo hi|vals|isarr arms|cats] eqn:K; rewrite T; unfold xnumeric at 1 2; cbn [x_kind x_idx_mod]; rewrite ?K; cbn [numeric is_continuous is_discrete orb app]. all: swap 3 4.
  - f_equal. apply IH. eapply sorted_tail; eauto.
  - f_equal. apply IH. eapply sorted_tail; eauto.
  - destruct (Nat.eq_dec (length cats) 1) as [L1|L1].
    + rewrite L1, Nat.add_1_r. apply IH. eapply sorted_tail; eauto.
    + assert (NN : forall w, In w xs -> xnumeric w = false).
      { intros w W. destruct (xnumeric w) eqn:X; [|reflexivity]. apply xnumeric_spec in X. exfalso. refine (H [] v xs eq_refl _ w W X). unfold spread. now rewrite K. }
      rewrite (proj2 (columns_none xs NN)). symmetry. apply columns_none.
      intros w W. apply In_nth_error in W. destruct W as [k W]. pose proof (f_equal (fun l => nth_error l k) (set_indices_kinds xs (S co) (cm + length cats))) as Q. cbn beta in Q.
      rewrite !nth_error_map, W in Q. destruct (nth_error xs k) as [u|] eqn:U; [|discriminate]. injection Q as Q. unfold xnumeric. rewrite Q. apply NN. now apply nth_error_In in U.
  - apply IH. eapply sorted_tail; eauto.
Qed.
(** once behind, always behind *)
Lemma positions_lt xs : forall i j, In j (positions xs i) -> i <= j < i + length xs.
Proof.
  induction xs as [|v xs IH]; intros i j; cbn [positions length]; [intros []|]. intros H. apply in_app_or in H. destruct H as [H|H].
  - destruct (xnumeric v); [destruct H as [<-|[]]; lia|destruct H].
  - apply IH in H. lia.
Qed.
Lemma behind xs : forall co i cm, i < cm -> (forall v, In v xs -> has_categories v) -> positions xs i = columns (set_indices xs co cm) -> forall w, In w xs -> ~ numerical w.
Proof.
  induction xs as [|v xs IH]; intros co i cm L HC E w W; [destruct W|].
  assert (T : forall x r, columns (x :: r) = (if xnumeric x then x_idx_mod x else []) ++ columns r) by (intros; unfold columns; cbn [filter]; destruct (xnumeric x); reflexivity).
  cbn [positions set_indices] in E.
  assert (HC' : forall v, In v xs -> has_categories v) by (intros; apply HC; now right).
  destruct (x_kind v) as [lo hi|vals|isarr arms|cats] eqn:K; rewrite T in E; unfold xnumeric at 1 2 in E; cbn [x_kind x_idx_mod] in E; rewrite ?K in E; cbn [numeric is_continuous is_discrete orb app] in E. all: swap 3 4.
  - injection E as E _. lia.
  - injection E as E _. lia.
  - destruct W as [<-|W]; [unfold numerical; rewrite K; tauto|]. apply (IH (S co) (S i) (cm + length cats)); auto.
    specialize (HC v (or_introl eq_refl)). unfold has_categories in HC. rewrite K in HC. destruct cats; [congruence|cbn; lia].
  - destruct W as [<-|W]; [unfold numerical; rewrite K; tauto|]. apply (IH (S co) (S i) (S cm)); auto. lia.
Qed.
Lemma positions_columns_inv xs : forall co cm, (forall v, In v xs -> has_categories v) -> positions xs cm = columns (set_indices xs co cm) -> sorted xs.
Proof.
  induction xs as [|v xs IH]; intros co cm HC E a u b EX SP w W; [destruct a; discriminate|].
  assert (T : forall x r, columns (x :: r) = (if xnumeric x then x_idx_mod x else []) ++ columns r) by (intros; unfold columns; cbn [filter]; destruct (xnumeric x); reflexivity).
  cbn [positions set_indices] in E.
  assert (HC' : forall v, In v xs -> has_categories v) by (intros; apply HC; now right).
  assert (CASE : forall cm', positions xs (S cm) = columns (set_indices xs (S co) cm') -> (cm' = S cm \/ S cm < cm') -> (spread v -> S cm < cm') -> ~ numerical w).
  { intros cm' EE CM SV. destruct a as [|x a]; cbn [app] in EX; injection EX as -> EX.
    - subst b. apply (behind xs (S co) (S cm) cm'); auto.
    - destruct CM as [->|CM]; [exact (IH _ _ HC' EE a u b EX SP w W)|]. apply (behind xs (S co) (S cm) cm'); auto. rewrite EX. apply in_or_app. right. now right. }
  destruct (x_kind v) as [lo hi|vals|isarr arms|cats] eqn:K; rewrite T in E; unfold xnumeric at 1 2 in E; cbn [x_kind x_idx_mod] in E; rewrite ?K in E; cbn [numeric is_continuous is_discrete orb app] in E. all: swap 3 4.
  - injection E as E. apply (CASE (S cm) E); [now left|]. unfold spread. rewrite K. tauto.
  - injection E as E. apply (CASE (S cm) E); [now left|]. unfold spread. rewrite K. tauto.
  - specialize (HC v (or_introl eq_refl)). unfold has_categories in HC. rewrite K in HC. apply (CASE (cm + length cats) E).
    + destruct cats as [|c [|c' cats]]; [congruence|left; cbn; lia|right; cbn; lia].
    + unfold spread. rewrite K. destruct cats as [|c [|c' cats]]; [congruence|cbn; lia|cbn; lia].
  - apply (CASE (S cm) E); [now left|]. unfold spread. rewrite K. tauto.
Qed.

Lemma translate_dichotomy ds vs : translate_space ds = Ok vs ->
  existsb (fun v => is_bandit (v_kind v)) vs = false \/ forallb (fun v => is_bandit (v_kind v)) vs = true.
Proof.
  unfold translate_space. destruct (translate_from 0 ds) as [vs'|]; cbn [bind]; [|discriminate].
  destruct (existsb (fun v => is_bandit (v_kind v)) vs') eqn:A, (existsb (fun v => negb (is_bandit (v_kind v))) vs') eqn:B; cbn; intros H; try discriminate; injection H as <-; auto.
  right. clear A. induction vs' as [|v vs IH]; [reflexivity|]. cbn [existsb forallb] in *. apply orb_false_elim in B. destruct B as [B1 B2]. rewrite IH by exact B2. destruct (is_bandit (v_kind v)); [reflexivity|discriminate].
Qed.
Lemma bandits_columns vs : forall xs co cm, mapM expand_var vs = Ok xs -> forallb (fun v => is_bandit (v_kind v)) vs = true -> columns (set_indices (concat xs) co cm) = [].
Proof.
  intros xs co cm M F. apply columns_none. intros w W. apply In_nth_error in W. destruct W as [k W].
  pose proof (f_equal (fun l => nth_error l k) (set_indices_kinds (concat xs) co cm)) as Q. cbn beta in Q. rewrite !nth_error_map, W in Q.
  destruct (nth_error (concat xs) k) as [u|] eqn:U; [|discriminate]. injection Q as Q. unfold xnumeric. rewrite Q. apply nth_error_In in U. clear Q W. revert xs M U. clear k.
  induction vs as [|v vs IH]; intros xs M U; cbn [mapM] in M; [injection M as <-; destruct U|].
  destruct (expand_var v) as [x|] eqn:E; cbn [bind] in M; [|discriminate]. destruct (mapM expand_var vs) as [xr|] eqn:MM; cbn [bind] in M; [|discriminate]. injection M as <-.
  cbn [forallb] in F. apply andb_prop in F. destruct F as [F1 F2]. cbn [concat] in U. apply in_app_or in U. destruct U as [U|U]; [|now apply (IH F2 xr)].
  unfold expand_var in E. destruct (v_kind v) eqn:K; try discriminate. destruct isarr; [|discriminate]. injection E as <-. destruct U as [<-|[]]. reflexivity.
Qed.
Theorem warping_iff ds cs sp : design_space ds cs = Ok sp -> (forall v, In v (sp_xvars sp) -> has_categories v) ->
  (warping_indices sp = concat (map x_idx_mod (filter xnumeric (sp_xvars sp))) <-> numerical_first sp).
Proof.
  unfold design_space. destruct (translate_space ds) as [vs|] eqn:T; cbn [bind]; [|discriminate]. destruct (expand_config_space ds) as [cse|]; cbn [bind]; [|discriminate].
  destruct (mapM expand_var vs) as [xs|] eqn:M; cbn [bind]; [|discriminate]. intros H HC. injection H as <-. unfold warping_indices, numerical_first. cbn [sp_vars sp_xvars] in *.
  fold (columns (set_indices (concat xs) 0 0)). fold (sorted (set_indices (concat xs) 0 0)).
  assert (HC' : forall v, In v (concat xs) -> has_categories v).
  { intros v I. apply In_nth_error in I. destruct I as [k I]. pose proof (f_equal (fun l => nth_error l k) (set_indices_kinds (concat xs) 0 0)) as Q. cbn beta in Q. rewrite !nth_error_map, I in Q.
    destruct (nth_error (set_indices (concat xs) 0 0) k) as [u|] eqn:U; [|discriminate]. injection Q as Q. apply nth_error_In in U. specialize (HC u U). unfold has_categories in *. now rewrite Q in HC. }
  destruct (translate_dichotomy ds vs T) as [NB|AB].
  - rewrite (warping_expanded vs xs 0 M NB). split; intros E.
    + apply (sorted_kinds (concat xs)); [symmetry; apply set_indices_kinds|]. now apply (positions_columns_inv (concat xs) 0 0).
    + apply positions_columns. apply (sorted_kinds (set_indices (concat xs) 0 0)); [apply set_indices_kinds|exact E].
  - rewrite (warping_bandits vs 0 AB), (bandits_columns vs xs 0 0 M AB). split; [|reflexivity]. intros _ a v b E SP w W NW.
    assert (I : In w (filter xnumeric (set_indices (concat xs) 0 0))).
    { apply filter_In. split; [rewrite E; apply in_or_app; right; now right|now apply xnumeric_spec]. }
    pose proof (bandits_columns vs xs 0 0 M AB) as C. unfold columns in C.
    apply In_nth_error in W. destruct W as [k W].
    assert (V : In v (set_indices (concat xs) 0 0)) by (rewrite E; apply in_or_app; right; now left).
    (* a categorical variable is not a bandit *)
    assert (VB : forall u, In u (set_indices (concat xs) 0 0) -> is_bandit (x_kind u) = true).
    { clear - M AB. intros u U. apply In_nth_error in U. destruct U as [k U]. pose proof (f_equal (fun l => nth_error l k) (set_indices_kinds (concat xs) 0 0)) as Q. cbn beta in Q. rewrite !nth_error_map, U in Q.
      destruct (nth_error (concat xs) k) as [x|] eqn:X; [|discriminate]. injection Q as Q. rewrite Q. apply nth_error_In in X. clear - M AB X. revert xs M X.
      induction vs as [|v vs IH]; intros xs M U; cbn [mapM] in M; [injection M as <-; destruct U|].
      destruct (expand_var v) as [y|] eqn:E; cbn [bind] in M; [|discriminate]. destruct (mapM expand_var vs) as [xr|] eqn:MM; cbn [bind] in M; [|discriminate]. injection M as <-.
      cbn [forallb] in AB. apply andb_prop in AB. destruct AB as [F1 F2]. cbn [concat] in U. apply in_app_or in U. destruct U as [U|U]; [|now apply (IH F2 xr)].
      unfold expand_var in E. destruct (v_kind v) eqn:K; try discriminate. destruct isarr; [|discriminate]. injection E as <-. destruct U as [<-|[]]. reflexivity. }
    specialize (VB v V). unfold spread in SP. destruct (x_kind v); try discriminate; tauto.
Qed.

(** ---------------------------------------------------------------- warping indices as a set of columns *)
Lemma columns_bounds xs : forall co cm, (forall j, In j (columns (set_indices xs co cm)) -> cm <= j) /\ NoDup (columns (set_indices xs co cm)).
Proof.
  assert (T : forall x r, columns (x :: r) = (if xnumeric x then x_idx_mod x else []) ++ columns r) by (intros; unfold columns; cbn [filter]; destruct (xnumeric x); reflexivity).
  induction xs as [|v xs IH]; intros co cm; [split; [intros j []|constructor]|].
  cbn [set_indices]. destruct (x_kind v) as [lo hi|vals|isarr arms|cats] eqn:K; rewrite T; unfold xnumeric at 1 2; cbn [x_kind x_idx_mod]; rewrite ?K; cbn [numeric is_continuous is_discrete orb app].
  - destruct (IH (S co) (S cm)) as [A B]. split; [intros j [<-|I]; [lia|apply A in I; lia]|]. constructor; [|exact B]. intros I. apply A in I. lia.
  - destruct (IH (S co) (S cm)) as [A B]. split; [intros j [<-|I]; [lia|apply A in I; lia]|]. constructor; [|exact B]. intros I. apply A in I. lia.
  - destruct (IH (S co) (S cm)) as [A B]. split; [intros j I; apply A in I; lia|exact B].
  - destruct (IH (S co) (cm + length cats)) as [A B]. split; [intros j I; apply A in I; lia|exact B].
Qed.
Lemma positions_nodup xs : forall i, NoDup (positions xs i).
Proof.
  induction xs as [|v xs IH]; intros i; cbn [positions]; [constructor|]. destruct (xnumeric v); cbn [app]; [|apply IH]. constructor; [|apply IH]. intros I. apply positions_lt in I. lia.
Qed.
Lemma columns_behind xs : forall co i cm, i < cm -> (forall v, In v xs -> has_categories v) -> incl (positions xs i) (columns (set_indices xs co cm)) -> forall w, In w xs -> ~ numerical w.
Proof.
  assert (T : forall x r, columns (x :: r) = (if xnumeric x then x_idx_mod x else []) ++ columns r) by (intros; unfold columns; cbn [filter]; destruct (xnumeric x); reflexivity).
  induction xs as [|v xs IH]; intros co i cm L HC E w W; [destruct W|].
  assert (HC' : forall v, In v xs -> has_categories v) by (intros; apply HC; now right).
  assert (NX : xnumeric v = true -> False).
  { intros X. assert (I : In i (columns (set_indices (v :: xs) co cm))) by (apply E; cbn [positions]; rewrite X; now left). apply (proj1 (columns_bounds (v :: xs) co cm)) in I. lia. }
  cbn [positions set_indices] in E.
  destruct (x_kind v) as [lo hi|vals|isarr arms|cats] eqn:K; rewrite T in E; unfold xnumeric at 1 2 in E; cbn [x_kind x_idx_mod] in E; rewrite ?K in E; cbn [numeric is_continuous is_discrete orb app] in E.
  - exfalso. apply NX. unfold xnumeric. now rewrite K.
  - exfalso. apply NX. unfold xnumeric. now rewrite K.
  - destruct W as [<-|W]; [unfold numerical; rewrite K; tauto|]. apply (IH (S co) (S i) (S cm)); auto. lia.
  - destruct W as [<-|W]; [unfold numerical; rewrite K; tauto|]. apply (IH (S co) (S i) (cm + length cats)); auto.
    specialize (HC v (or_introl eq_refl)). unfold has_categories in HC. rewrite K in HC. destruct cats; [congruence|cbn; lia].
Qed.
Lemma incl_positions_sorted xs : forall co cm, (forall v, In v xs -> has_categories v) -> incl (positions xs cm) (columns (set_indices xs co cm)) -> sorted xs.
Proof.
  assert (T : forall x r, columns (x :: r) = (if xnumeric x then x_idx_mod x else []) ++ columns r) by (intros; unfold columns; cbn [filter]; destruct (xnumeric x); reflexivity).
  induction xs as [|v xs IH]; intros co cm HC E a u b EX SP w W; [destruct a; discriminate|].
  assert (HC' : forall v, In v xs -> has_categories v) by (intros; apply HC; now right).
  assert (CASE : forall cm', incl (positions xs (S cm)) (columns (set_indices xs (S co) cm')) -> (cm' = S cm \/ S cm < cm') -> (spread v -> S cm < cm') -> ~ numerical w).
  { intros cm' EE CM SV. destruct a as [|x a]; cbn [app] in EX; injection EX as -> EX.
    - subst b. apply (columns_behind xs (S co) (S cm) cm'); auto.
    - destruct CM as [->|CM]; [exact (IH _ _ HC' EE a u b EX SP w W)|]. apply (columns_behind xs (S co) (S cm) cm'); auto. rewrite EX. apply in_or_app. right. now right. }
  assert (LT : forall j, In j (positions xs (S cm)) -> cm < j) by (intros j I; apply positions_lt in I; lia).
  cbn [positions set_indices] in E.
  destruct (x_kind v) as [lo hi|vals|isarr arms|cats] eqn:K; rewrite T in E; unfold xnumeric at 1 2 in E; cbn [x_kind x_idx_mod] in E; rewrite ?K in E; cbn [numeric is_continuous is_discrete orb app] in E.
  - apply (CASE (S cm)); [|now left|unfold spread; rewrite K; tauto]. intros j I. destruct (E j (or_intror I)) as [<-|J]; [apply LT in I; lia|exact J].
  - apply (CASE (S cm)); [|now left|unfold spread; rewrite K; tauto]. intros j I. destruct (E j (or_intror I)) as [<-|J]; [apply LT in I; lia|exact J].
  - apply (CASE (S cm) E); [now left|]. unfold spread. rewrite K. tauto.
  - specialize (HC v (or_introl eq_refl)). unfold has_categories in HC. rewrite K in HC. apply (CASE (cm + length cats) E).
    + destruct cats as [|c [|c' cats]]; [congruence|left; cbn; lia|right; cbn; lia].
    + unfold spread. rewrite K. destruct cats as [|c [|c' cats]]; [congruence|cbn; lia|cbn; lia].
Qed.
Lemma columns_spec sp : forall j, In j (concat (map x_idx_mod (filter xnumeric (sp_xvars sp)))) <-> numerical_column sp j.
Proof.
  intros j. rewrite in_concat. unfold numerical_column. split.
  - intros (l & I & J). apply in_map_iff in I. destruct I as (v & <- & V). apply filter_In in V. destruct V as [V X]. apply xnumeric_spec in X. eauto.
  - intros (v & V & X & J). exists (x_idx_mod v). split; [|exact J]. apply in_map. apply filter_In. split; [exact V|now apply xnumeric_spec].
Qed.
Theorem warping_right ds cs sp : design_space ds cs = Ok sp -> (forall v, In v (sp_xvars sp) -> has_categories v) -> numerical_first sp ->
  NoDup (warping_indices sp) /\ forall j, In j (warping_indices sp) <-> numerical_column sp j.
Proof.
  intros D HC NF. pose proof (proj2 (warping_iff ds cs sp D HC) NF) as E. rewrite E. split; [|apply columns_spec].
  revert D. unfold design_space. destruct (translate_space ds) as [vs|]; cbn [bind]; [|discriminate]. destruct (expand_config_space ds); cbn [bind]; [|discriminate].
  destruct (mapM expand_var vs) as [xs|]; cbn [bind]; [|discriminate]. intros [= <-]. cbn [sp_xvars]. apply columns_bounds.
Qed.
Theorem warping_wrong ds cs sp : design_space ds cs = Ok sp -> (forall v, In v (sp_xvars sp) -> has_categories v) ->
  (forall j, In j (warping_indices sp) -> numerical_column sp j) -> numerical_first sp.
Proof.
  intros D HC IN. assert (IN' : incl (warping_indices sp) (columns (sp_xvars sp))) by (intros j J; apply columns_spec; now apply IN). clear IN.
  revert D HC IN'. unfold design_space. destruct (translate_space ds) as [vs|] eqn:T; cbn [bind]; [|discriminate]. destruct (expand_config_space ds) as [cse|]; cbn [bind]; [|discriminate].
  destruct (mapM expand_var vs) as [xs|] eqn:M; cbn [bind]; [|discriminate]. intros [= <-]. unfold warping_indices, numerical_first. cbn [sp_vars sp_xvars]. intros HC IN.
  fold (sorted (set_indices (concat xs) 0 0)).
  assert (HC' : forall v, In v (concat xs) -> has_categories v).
  { intros v I. apply In_nth_error in I. destruct I as [k I]. pose proof (f_equal (fun l => nth_error l k) (set_indices_kinds (concat xs) 0 0)) as Q. cbn beta in Q. rewrite !nth_error_map, I in Q.
    destruct (nth_error (set_indices (concat xs) 0 0) k) as [u|] eqn:U; [|discriminate]. injection Q as Q. apply nth_error_In in U. specialize (HC u U). unfold has_categories in *. now rewrite Q in HC. }
  destruct (translate_dichotomy ds vs T) as [NB|AB].
  - rewrite (warping_expanded vs xs 0 M NB) in IN. apply (sorted_kinds (concat xs)); [symmetry; apply set_indices_kinds|]. now apply (incl_positions_sorted (concat xs) 0 0).
  - clear IN. assert (NN : forall w, In w (set_indices (concat xs) 0 0) -> ~ numerical w).
    { intros w W NW. pose proof (bandits_columns vs xs 0 0 M AB) as C. unfold columns in C.
      assert (I : In w (filter xnumeric (set_indices (concat xs) 0 0))) by (apply filter_In; split; [exact W|now apply xnumeric_spec]).
      clear - I C NW. assert (LI : forall ys co cm u, In u (set_indices ys co cm) -> numerical u -> x_idx_mod u <> []).
      { induction ys as [|v ys IH]; intros co cm u; [intros []|]. cbn [set_indices]. destruct (x_kind v) eqn:K; intros [<-|I'] N; try (cbn; discriminate); try (eapply IH; eauto; fail); unfold numerical in N; cbn in N; try rewrite K in N; tauto. }
      apply filter_In in I. destruct I as [I X]. apply (LI _ _ _ _ I NW). destruct (x_idx_mod w) as [|j l] eqn:EW; [reflexivity|]. exfalso.
      assert (J : In j (concat (map x_idx_mod (filter xnumeric (set_indices (concat xs) 0 0))))).
      { apply in_concat. exists (x_idx_mod w). split; [apply in_map; apply filter_In; auto|rewrite EW; now left]. }
      rewrite C in J. destruct J. }
    intros a v b E SP w W. apply NN. rewrite E. apply in_or_app. right. now right.
Qed.
