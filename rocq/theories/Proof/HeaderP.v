From Coq Require Import String List Arith Lia.
From Verif.Model Require Import Py Report Header.
From Verif.Spec Require Import HeaderSpec.
From Verif.Proof Require Import Num.
Import ListNotations.

Lemma entries_flat : forall ps, entry_labels ps = flat_map p_labels ps.
Proof. induction ps as [|p ps IH]; cbn; [reflexivity | now rewrite IH]. Qed.
Lemma entries_app : forall a b, entry_labels (a ++ b) = entry_labels a ++ entry_labels b.
Proof. intros a b. rewrite !entries_flat. apply flat_map_app. Qed.

Lemma numbered_rows : forall H row, In row (numbered H) -> exists i r, In r H /\ row = i :: r.
Proof.
  intros H row Hr. unfold numbered in Hr. apply in_map_iff in Hr. destruct Hr as [[i r] [<- Hin]].
  exists (nat2q (S i)), r. split; [now apply in_combine_r in Hin | reflexivity].
Qed.
Lemma numbered_length : forall H, List.length (numbered H) = List.length H.
Proof. intros H. unfold numbered. rewrite map_length, combine_length, seq_length. lia. Qed.
Lemma numbered_first : forall r H, exists row, In row (numbered (r :: H)) /\ exists i, row = i :: r.
Proof. intros r H. unfold numbered. cbn. eexists. split; [left; reflexivity | eexists; reflexivity]. Qed.

(** A header is right for recorded rows exactly when it begins with the labels *)
Lemma titled_iff : forall ps H hd, H <> [] -> recorded_for ps H ->
  (titled ps ("Iteration"%string :: hd, numbered H) <-> (forall j, j < List.length (entry_labels ps) -> nth_error hd j = nth_error (entry_labels ps) j)).
Proof.
  intros ps H hd Hne Hrec. split.
  - intros Ht j Hj. destruct H as [|r H]; [congruence|]. destruct (numbered_first r H) as [row [Hin [i Hrow]]].
    assert (Hl : List.length r = List.length (entry_labels ps)) by (apply Hrec; left; reflexivity).
    destruct (nth_error r j) as [v|] eqn:Ev.
    + specialize (Ht row Hin (S j) v). cbn [fst snd nth_error] in Ht. apply Ht. rewrite Hrow. exact Ev.
    + apply nth_error_None in Ev. lia.
  - intros Hh row Hin k v Hk. cbn [fst snd] in *. destruct (numbered_rows _ _ Hin) as [i [r [Hr ->]]].
    destruct k as [|j]; [reflexivity|]. cbn [nth_error] in *. apply Hh. rewrite <- (Hrec r Hr). apply nth_error_Some. congruence.
Qed.

Lemma flat_drop : forall drops ps, List.length (names_flat drops ps) <= List.length (entry_labels ps).
Proof.
  intros drops. unfold names_flat. induction ps as [|p ps IH]; cbn; [lia|].
  destruct (negb (andb drops (p_fixed p))); cbn; rewrite ?app_length; lia.
Qed.
Lemma flat_keep : forall drops ps, (drops = true -> forall p, In p ps -> p_fixed p = true -> p_labels p = []) -> names_flat drops ps = entry_labels ps.
Proof.
  intros drops. unfold names_flat. induction ps as [|p ps IH]; intros Hk; cbn; [reflexivity|].
  destruct (andb drops (p_fixed p)) eqn:E; cbn.
  - apply andb_prop in E. destruct E as [-> E]. rewrite (Hk eq_refl p (or_introl eq_refl) E). cbn. apply IH. intros _ p' Hp'. apply Hk; [reflexivity | now right].
  - f_equal. apply IH. intros Hd p' Hp'. apply Hk; [exact Hd | now right].
Qed.
Lemma flat_loses : forall ps p, In p ps -> p_fixed p = true -> p_labels p <> [] -> List.length (names_flat true ps) < List.length (entry_labels ps).
Proof.
  induction ps as [|q ps IH]; intros p Hin Hf Hl; [destruct Hin|]. pose proof (flat_drop true ps) as Hd.
  unfold names_flat in *. cbn [andb] in *. cbn. destruct Hin as [<-|Hin].
  - rewrite Hf. cbn. rewrite app_length. destruct (p_labels q) as [|x l]; [congruence|]. cbn. lia.
  - specialize (IH p Hin Hf Hl). destruct (negb (p_fixed q)); cbn; rewrite ?app_length; lia.
Qed.

Lemma gp_exact : forall drops ps H, H <> [] -> recorded_for ps H ->
  exists t, models_file false drops ps (Some H) = Ok t /\
    (titled ps t <-> (drops = true -> forall p, In p ps -> p_fixed p = true -> p_labels p = [])).
Proof.
  intros drops ps H Hne Hrec. eexists. split; [reflexivity|]. cbn [get_model_parameters_names].
  rewrite (titled_iff _ _ _ Hne Hrec). split.
  - intros Hh -> p Hin Hf. destruct (p_labels p) as [|x l] eqn:El; [reflexivity|]. exfalso.
    assert (Hlt : List.length (names_flat true ps) < List.length (entry_labels ps)) by (apply (flat_loses ps p Hin Hf); rewrite El; discriminate).
    specialize (Hh _ Hlt). assert (Hn : nth_error (names_flat true ps) (List.length (names_flat true ps)) = None) by (apply nth_error_None; lia).
    rewrite Hn in Hh. symmetry in Hh. apply nth_error_None in Hh. lia.
  - intros Hk j _. now rewrite (flat_keep drops ps Hk).
Qed.

Lemma mcmc_length : forall ps, (forall p, In p ps -> p_labels p <> []) -> List.length (names ps) <= List.length (entry_labels ps).
Proof.
  unfold names. induction ps as [|p ps IH]; intros Hne; cbn; [lia|]. rewrite app_length.
  assert (Hp := Hne p (or_introl eq_refl)). destruct (p_labels p); [congruence|]. cbn. specialize (IH (fun q Hq => Hne q (or_intror Hq))). lia.
Qed.
Lemma mcmc_exact : forall drops ps H, H <> [] -> recorded_for ps H -> (forall p, In p ps -> p_labels p <> [] /\ plain_label p) ->
  exists t, models_file true drops ps (Some H) = Ok t /\ (titled ps t <-> (forall p, In p ps -> List.length (p_labels p) = 1)).
Proof.
  intros drops ps H Hne Hrec Hps. eexists. split; [reflexivity|]. cbn [get_model_parameters_names].
  rewrite (titled_iff _ _ _ Hne Hrec). clear H Hne Hrec. split.
  - intros Hh. assert (Hl : List.length (entry_labels ps) <= List.length (names ps)).
    { destruct (Nat.le_gt_cases (List.length (entry_labels ps)) (List.length (names ps))) as [?|Hlt]; [assumption|]. exfalso.
      specialize (Hh _ Hlt). assert (Hn : nth_error (names ps) (List.length (names ps)) = None) by (apply nth_error_None; lia).
      rewrite Hn in Hh. symmetry in Hh. apply nth_error_None in Hh. lia. }
    clear Hh. induction ps as [|q ps IH]; intros p Hin; [destruct Hin|].
    assert (Hq := proj1 (Hps q (or_introl eq_refl))).
    assert (Hr : forall p, In p ps -> p_labels p <> [] /\ plain_label p) by (intros p' Hp'; apply Hps; now right).
    pose proof (mcmc_length ps (fun p Hp => proj1 (Hr p Hp))) as Hm. cbn in Hl. rewrite app_length in Hl. unfold names in Hm, IH, Hl.
    destruct (p_labels q) as [|x l] eqn:El; [congruence|]. cbn in Hl. destruct Hin as [<-|Hin].
    + rewrite El. cbn. lia.
    + apply IH; [exact Hr | lia | exact Hin].
  - intros H1 j _. replace (names ps) with (entry_labels ps); [reflexivity|]. unfold names.
    induction ps as [|q ps IH]; cbn; [reflexivity|]. rewrite (proj2 (Hps q (or_introl eq_refl)) (H1 q (or_introl eq_refl))). cbn. f_equal.
    apply IH; intros p Hp; [apply Hps | apply H1]; now right.
Qed.

Lemma noise_only : forall others H, H <> [] -> recorded_for (parameters others true) H -> (forall p, In p others -> p_fixed p = false) ->
  exists t, models_file false true (parameters others true) (Some H) = Ok t /\
    fst t = "Iteration"%string :: entry_labels others /\
    forall row, In row (snd t) -> List.length row = S (List.length (fst t)).
Proof.
  intros others H Hne Hrec Hf. eexists. split; [reflexivity|]. cbn [get_model_parameters_names fst snd].
  assert (Hn : names_flat true (parameters others true) = entry_labels others).
  { rewrite <- (flat_keep true others); [|intros _ p Hp Hp'; rewrite (Hf p Hp) in Hp'; discriminate].
    unfold names_flat, parameters. rewrite filter_app. cbn. now rewrite app_nil_r. }
  rewrite Hn. split; [reflexivity|]. intros row Hrow. destruct (numbered_rows _ _ Hrow) as [i [r [Hr ->]]]. cbn.
  rewrite (Hrec r Hr). unfold parameters. rewrite entries_app, app_length. cbn. lia.
Qed.
