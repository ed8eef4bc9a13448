From Coq Require Import String List ZArith QArith Qcanon Bool Lia Arith.
From Verif.Model Require Import Py Optim Output.
From Verif.Spec Require Import OutputSpec.
From Verif.Proof Require Import Num.
Import ListNotations.
Local Open Scope nat_scope.

Definition tick (final : bool) (c : Qc) : Qc := if final then (if qceq c (z2q (-1)) then q0 else c) else (if qclt q0 c then (c + z2q (-1))%Qc else c).
Definition ztick (final : bool) (c : Z) : Z := if final then (if Z.eqb c (-1) then 0%Z else c) else (if Z.ltb 0 c then (c - 1)%Z else c).
Lemma qceq_z a b : qceq (z2q a) (z2q b) = Z.eqb a b.
Proof.
  destruct (Z.eqb_spec a b) as [-> | N]; [apply qceq_refl|]. apply qceq_false. intro E. apply N, z2q_inj, E.
Qed.
Lemma qclt_z a b : qclt (z2q a) (z2q b) = Z.ltb a b.
Proof. destruct (Z.ltb_spec a b) as [L | L]; [now apply qclt_spec, z2q_lt|now apply qclt_false, z2q_le]. Qed.
Lemma q0_z : q0 = z2q 0.
Proof. reflexivity. Qed.
Lemma tick_z final c : tick final (z2q c) = z2q (ztick final c).
Proof.
  unfold tick, ztick. rewrite q0_z, qceq_z, qclt_z. destruct final, (Z.eqb c (-1)), (Z.ltb 0 c); try reflexivity; symmetry; exact (z2q_plus c (-1)).
Qed.
Definition fractional (q : Qc) : Prop := forall k, q <> z2q k.
Lemma tick_fractional final c : fractional c -> fractional (tick final c) /\ qceq (tick final c) q0 = false.
Proof.
  intros F. assert (G : fractional (tick final c)).
  { intros k. unfold tick. destruct final.
    - destruct (qceq c (z2q (-1))) eqn:E; [apply qceq_spec in E; now apply F in E|]. apply F.
    - destruct (qclt q0 c); [|apply F]. intro E. apply (F (k + 1)%Z). rewrite z2q_plus, <- E. rewrite <- Qcplus_assoc, <- (z2q_plus (-1) 1). change (z2q (-1 + 1)) with 0%Qc. ring. }
  split; [exact G|]. apply qceq_false. rewrite q0_z. apply G.
Qed.
Section S.
Variable save : nat -> list entry -> option exn.
Lemma savers_quiet final data : (forall i d, save i d = None) -> forall ivs clock k cs fs e, savers save final data ivs clock k = (cs, fs, e) ->
  length clock = length ivs ->
  e = None /\ length cs = length ivs /\
  (forall j, In j (map (fun f => fst (fst f)) fs) -> k <= j) /\
  forall j iv c, nth_error ivs j = Some iv -> nth_error clock j = Some c ->
    nth_error cs j = Some (if qceq (tick final c) q0 then iv else tick final c) /\
    filter (fun f => Nat.eqb (fst (fst f)) (k + j)) fs = (if qceq (tick final c) q0 then [(k + j, data, None)] else []).
Proof.
  intros Q. induction ivs as [|iv ivs IH]; intros [|c clock] k cs fs e H L; try discriminate; cbn [savers] in H.
  - injection H as <- <- <-. repeat split; auto; try (now intros ? []); destruct j; discriminate.
  - change (if final then (if qceq c (z2q (-1)) then q0 else c) else (if qclt q0 c then (c + z2q (-1))%Qc else c)) with (tick final c) in H.
    injection L as L. destruct (savers save final data ivs clock (S k)) as [[cs' fs'] e'] eqn:R.
    destruct (IH clock (S k) cs' fs' e' R L) as (A1 & A2 & A3 & A4). subst e'.
    assert (NK : filter (fun f => Nat.eqb (fst (fst f)) (k + 0)) fs' = []).
    { clear - A3. induction fs' as [|f fs' IHf]; [reflexivity|]. simpl in *. pose proof (A3 _ (or_introl eq_refl)).
      destruct (Nat.eqb_spec (fst (fst f)) (k + 0)); [lia|]. apply IHf. intros j I. apply A3. auto. }
    assert (Sj : forall j, k + S j = S k + j) by (intros; lia).
    destruct (qceq (tick final c) q0) eqn:T.
    + rewrite Q in H. injection H as <- <- <-. repeat split; auto; try (simpl; lia).
      * simpl. intros j [<-|I]; [lia|]. specialize (A3 j I). lia.
      * destruct j as [|j]; simpl in H, H0.
        -- injection H as <-. injection H0 as <-. now rewrite T.
        -- apply (A4 j iv0 c0 H H0).
      * destruct j as [|j]; simpl in H, H0.
        -- injection H as <-. injection H0 as <-. rewrite T. cbn [filter fst]. rewrite NK. rewrite Nat.add_0_r, Nat.eqb_refl. reflexivity.
        -- cbn [filter fst]. destruct (Nat.eqb_spec k (k + S j)); [lia|]. rewrite Sj. apply (A4 j iv0 c0 H H0).
    + injection H as <- <- <-. repeat split; auto; try (simpl; lia).
      * intros j I. specialize (A3 j I). lia.
      * destruct j as [|j]; simpl in H, H0.
        -- injection H as <-. injection H0 as <-. now rewrite T.
        -- apply (A4 j iv0 c0 H H0).
      * destruct j as [|j]; simpl in H, H0.
        -- injection H as <-. injection H0 as <-. rewrite T. apply NK.
        -- rewrite Sj. apply (A4 j iv0 c0 H H0).
Qed.

Lemma append_all_snoc o ens en : append_all save o (ens ++ [en]) = fst (append_iter save (append_all save o ens) en).
Proof. unfold append_all. now rewrite fold_left_app. Qed.
Lemma append_data o en : o_data (fst (append_iter save o en)) = o_data o ++ [en].
Proof. unfold append_iter. destruct (savers _ _ _ _ _ _) as [[? ?] ?]. reflexivity. Qed.
Lemma append_intervals o en : o_intervals (fst (append_iter save o en)) = o_intervals o.
Proof. unfold append_iter. destruct (savers _ _ _ _ _ _) as [[? ?] ?]. reflexivity. Qed.
Lemma append_all_data o ens : o_data (append_all save o ens) = o_data o ++ ens.
Proof.
  induction ens as [|en ens IH] using rev_ind; [simpl; now rewrite app_nil_r|]. now rewrite append_all_snoc, append_data, IH, app_assoc.
Qed.
Lemma append_all_intervals o ens : o_intervals (append_all save o ens) = o_intervals o.
Proof. induction ens as [|en ens IH] using rev_ind; [reflexivity|]. now rewrite append_all_snoc, append_intervals. Qed.

Lemma mapM_saver ivs l : mapM data_saver ivs = Ok l -> l = ivs /\ Forall (fun iv => (q0 < iv)%Qc \/ iv = z2q (-1)) ivs.
Proof.
  revert l. induction ivs as [|iv ivs IH]; intros l H; simpl in H; [injection H as <-; auto|]. unfold data_saver in H at 1.
  destruct (qclt q0 iv || qceq iv (z2q (-1))) eqn:E; [|discriminate]. simpl in H. destruct (mapM data_saver ivs) as [l'|] eqn:M; [|discriminate].
  simpl in H. injection H as <-. destruct (IH l' eq_refl) as [-> F]. split; auto. constructor; auto.
  apply orb_true_iff in E. destruct E as [E|E]; [left; now apply qclt_spec|right; now apply qceq_spec].
Qed.

Definition nonfinal (ens : list entry) : Z := Z.of_nat (length (filter (fun e => negb (en_final e)) ens)).
Lemma histories_snoc ens en : histories (ens ++ [en]) = histories ens ++ [ens ++ [en]].
Proof.
  unfold histories. rewrite app_length. cbn [length]. rewrite Nat.add_1_r, seq_S, map_app. cbn [map]. f_equal.
  - apply map_ext_in. intros k I. apply in_seq in I. rewrite firstn_app. replace (k - length ens) with 0 by lia. simpl. apply app_nil_r.
  - f_equal. replace (1 + length ens) with (length (ens ++ [en])) by (rewrite app_length; simpl; lia). apply firstn_all.
Qed.
Lemma nonfinal_snoc ens en : nonfinal (ens ++ [en]) = (nonfinal ens + if en_final en then 0 else 1)%Z.
Proof. unfold nonfinal. rewrite filter_app, app_length. simpl. destruct (en_final en); simpl; lia. Qed.
Lemma due_snoc iv ens en : due iv (ens ++ [en]) = if Z.eqb iv (-1) then en_final en else negb (en_final en) && Z.eqb (Z.modulo (nonfinal (ens ++ [en])) iv) 0.
Proof. unfold due. rewrite rev_app_distr. reflexivity. Qed.

Lemma engine_inv ivs o ens : (forall i d, save i d = None) -> output_eng ivs = Ok o ->
  length (o_clock (append_all save o ens)) = length ivs /\
  (forall i iv, nth_error ivs i = Some (z2q iv) ->
    nth_error (o_clock (append_all save o ens)) i = Some (z2q (if Z.eqb iv (-1) then (-1) else iv - Z.modulo (nonfinal ens) iv)) /\
    saved_by i (append_all save o ens) = filter (due iv) (histories ens)) /\
  forall i iv, nth_error ivs i = Some iv -> fractional iv ->
    (exists c, nth_error (o_clock (append_all save o ens)) i = Some c /\ fractional c) /\ saved_by i (append_all save o ens) = [].
Proof.
  intros Q O. unfold output_eng in O. destruct (mapM data_saver ivs) as [l|] eqn:M; [|discriminate]. simpl in O. injection O as <-.
  destruct (mapM_saver _ _ M) as [-> F].
  induction ens as [|en ens (IHl & IH & IHf)] using rev_ind.
  - split; [reflexivity|]. split; [|intros i iv N FR; split; [|reflexivity]; exists iv; split; [exact N|exact FR]]. intros i iv N. split; [|reflexivity]. cbn [append_all fold_left o_clock]. rewrite N. destruct (Z.eqb_spec iv (-1)); [now subst|].
    do 2 f_equal. unfold nonfinal. simpl. rewrite Z.mod_0_l; [lia|]. rewrite Forall_forall in F. specialize (F _ (nth_error_In _ _ N)). rewrite q0_z in F. destruct F as [F|F]; [apply (z2q_lt 0 iv) in F; lia|apply z2q_inj in F; now subst].
  - rewrite append_all_snoc. set (o := append_all save _ ens) in *. 
    assert (OI : o_intervals o = ivs) by (unfold o; now rewrite append_all_intervals).
    assert (OD : o_data o = ens) by (unfold o; now rewrite append_all_data).
    unfold append_iter. rewrite OI, OD. destruct (savers save (en_final en) (ens ++ [en]) ivs (o_clock o) 0) as [[cs fs] e] eqn:R.
    destruct (savers_quiet _ _ Q _ _ _ _ _ _ R IHl) as (-> & L & _ & K). cbn [fst o_clock]. split; [exact L|].
    split.
    2:{ intros i iv N FR. destruct (IHf i iv N FR) as ((c & C & FC) & S0). destruct (K i iv c N C) as [C' FF]. destruct (tick_fractional (en_final en) c FC) as (T1 & T2).
        rewrite T2 in C', FF. split; [eauto|]. unfold saved_by in *. cbn [o_fired]. rewrite filter_app, map_app, S0. simpl in FF. rewrite FF. reflexivity. }
    intros i iv N.
    destruct (IH i iv N) as [C S0]. destruct (K i _ _ N C) as [C' FF]. clear K. rewrite Forall_forall in F. specialize (F _ (nth_error_In _ _ N)).
    assert (Fz : (0 < iv)%Z \/ iv = (-1)%Z) by (destruct F as [F|F]; [left; now apply z2q_lt|right; now apply z2q_inj]). clear F.
    rewrite tick_z, q0_z, qceq_z in C', FF.
    unfold saved_by in *. cbn [o_fired]. rewrite filter_app, map_app, S0, histories_snoc, filter_app. cbn [filter]. rewrite due_snoc, nonfinal_snoc.
    rewrite C'. simpl in FF. rewrite FF. clear C' FF S0 C.
    destruct (Z.eqb_spec iv (-1)) as [E|E].
    + subst iv. unfold ztick. destruct (en_final en); simpl; auto.
    + assert (POS : (0 < iv)%Z) by lia. pose proof (Z.mod_pos_bound (nonfinal ens) iv POS) as B. unfold ztick.
      destruct (en_final en); cbn [negb andb].
      * rewrite Z.add_0_r. destruct (Z.eqb_spec (iv - nonfinal ens mod iv) (-1)); [lia|]. destruct (Z.eqb_spec (iv - nonfinal ens mod iv) 0); [lia|]. simpl. auto.
      * destruct (Z.ltb_spec 0 (iv - nonfinal ens mod iv)); [|lia].
        assert (MM : ((nonfinal ens + 1) mod iv = if Z.eqb (nonfinal ens mod iv + 1) iv then 0 else nonfinal ens mod iv + 1)%Z).
        { rewrite Z.add_mod by lia. destruct (Z.eqb_spec (nonfinal ens mod iv + 1) iv) as [Q1|Q1].
          - destruct (Z.eq_dec iv 1) as [->|N1]; [now rewrite !Z.mod_1_r|]. rewrite (Z.mod_small 1) by lia. rewrite Q1. apply Z.mod_same. lia.
          - destruct (Z.eq_dec iv 1) as [->|N1]; [rewrite !Z.mod_1_r in *; lia|]. rewrite (Z.mod_small 1) by lia. apply Z.mod_small. lia. }
        rewrite MM. destruct (Z.eqb_spec (nonfinal ens mod iv + 1) iv) as [Q1|Q1].
        -- replace (iv - nonfinal ens mod iv - 1)%Z with 0%Z by lia. simpl. split; [do 2 f_equal; lia|reflexivity].
        -- destruct (Z.eqb_spec (iv - nonfinal ens mod iv - 1) 0); [lia|]. destruct (Z.eqb_spec (nonfinal ens mod iv + 1) 0); [lia|]. simpl. split; [do 2 f_equal; lia|reflexivity].
Qed.

(** ---- With exceptions *)
Lemma savers_data final data : forall ivs clock k cs fs e, savers save final data ivs clock k = (cs, fs, e) -> Forall (fun f => snd (fst f) = data) fs.
Proof.
  induction ivs as [|iv ivs IH]; intros [|c clock] k cs fs e H; cbn [savers] in H; try (injection H as <- <- <-; constructor).
  destruct (qceq _ q0).
  - destruct (save k data); [injection H as <- <- <-; repeat constructor|]. destruct (savers save final data ivs clock (S k)) as [[cs' fs'] e'] eqn:R.
    injection H as <- <- <-. constructor; [reflexivity|]. eapply IH, R.
  - destruct (savers save final data ivs clock (S k)) as [[cs' fs'] e'] eqn:R. injection H as <- <- <-. eapply IH, R.
Qed.
Lemma savers_raise final data : forall ivs clock k cs fs e, savers save final data ivs clock k = (cs, fs, Some e) ->
  exists i iv fs', fs = fs' ++ [(k + i, data, Some e)] /\ nth_error ivs i = Some iv /\ nth_error cs i = Some q0 /\ Forall (fun f => snd f = None) fs'.
Proof.
  induction ivs as [|iv ivs IH]; intros [|c clock] k cs fs e H; cbn [savers] in H; try discriminate.
  destruct (qceq _ q0) eqn:T.
  - destruct (save k data).
    + injection H as <- <- <-. exists 0, iv, []. apply qceq_spec in T. cbn [nth_error]. rewrite T, Nat.add_0_r. simpl. repeat split; auto.
    + destruct (savers save final data ivs clock (S k)) as [[cs' fs'] e'] eqn:R. injection H as <- <- ->.
      destruct (IH _ _ _ _ _ R) as (i & iv' & f & -> & A & B & C). exists (S i), iv', ((k, data, None) :: f). rewrite Nat.add_succ_r. simpl. repeat split; auto.
  - destruct (savers save final data ivs clock (S k)) as [[cs' fs'] e'] eqn:R. injection H as <- <- ->.
    destruct (IH _ _ _ _ _ R) as (i & iv' & f & -> & A & B & C). exists (S i), iv', f. rewrite Nat.add_succ_r. simpl. repeat split; auto.
Qed.
Lemma savers_zero final data : forall ivs clock k cs fs e i iv, savers save final data ivs clock k = (cs, fs, e) ->
  nth_error ivs i = Some iv -> nth_error clock i = Some q0 -> (forall j, j < k + i -> save j data = None) -> In (k + i, data, save (k + i) data) fs.
Proof.
  induction ivs as [|iv ivs IH]; intros [|c clock] k cs fs e i iv' H NI NC Q; try (destruct i; discriminate). cbn [savers] in H. destruct i as [|i]; cbn [nth_error] in NI, NC.
  - injection NC as ->. rewrite Nat.add_0_r in *. replace (if final then if qceq q0 (z2q (-1)) then q0 else q0 else if qclt q0 q0 then (q0 + z2q (-1))%Qc else q0) with q0 in H by (destruct final; reflexivity).
    rewrite qceq_refl in H. destruct (save k data); [injection H as <- <- <-; now left|]. destruct (savers save final data ivs clock (S k)) as [[cs' fs'] e'].
    injection H as <- <- <-. now left.
  - rewrite Nat.add_succ_r in Q |- *. change (S (k + i)) with (S k + i) in *. destruct (qceq _ q0).
    + rewrite Q in H by lia. destruct (savers save final data ivs clock (S k)) as [[cs' fs'] e'] eqn:R. injection H as <- <- <-. right. eapply IH; eauto.
    + destruct (savers save final data ivs clock (S k)) as [[cs' fs'] e'] eqn:R. injection H as <- <- <-. eapply IH; eauto.
Qed.
End S.
Lemma retry save o en o' e : append_iter save o en = (o', Some e) ->
  exists i fs, o_fired o' = o_fired o ++ fs ++ [(i, o_data o', Some e)] /\ Forall (fun f => snd f = None) fs /\
    forall save' en', (forall j d, j < i -> save' j d = None) -> In (i, o_data o' ++ [en'], save' i (o_data o' ++ [en'])) (o_fired (fst (append_iter save' o' en'))).
Proof.
  unfold append_iter at 1. destruct (savers save (en_final en) (o_data o ++ [en]) (o_intervals o) (o_clock o) 0) as [[cs fs] e'] eqn:R. intros [= <- ->].
  destruct (savers_raise _ _ _ _ _ _ _ _ _ R) as (i & iv & fs' & -> & NI & NC & N). exists i, fs'. cbn [o_fired o_data]. split; [reflexivity|]. split; [exact N|].
  intros save' en' Q. unfold append_iter. cbn [o_fired o_data o_intervals o_clock].
  destruct (savers save' (en_final en') _ (o_intervals o) cs 0) as [[cs2 fs2] e2] eqn:R2. cbn [fst o_fired]. apply in_or_app. right.
  apply (savers_zero _ _ _ _ _ _ _ _ _ i iv R2 NI NC). intros j J. apply Q, J.
Qed.
Lemma fired_all_data save ivs o ens i d x : output_eng ivs = Ok o -> In (i, d, x) (o_fired (append_all save o ens)) -> In d (histories ens).
Proof.
  intros O. unfold output_eng in O. destruct (mapM data_saver ivs) as [l|]; [|discriminate]. simpl in O. injection O as <-.
  induction ens as [|en ens IH] using rev_ind; [intros []|]. rewrite append_all_snoc, histories_snoc.
  unfold append_iter. rewrite append_all_data. cbn [o_data]. rewrite app_nil_l.
  destruct (savers _ _ _ _ _ _) as [[cs fs] e] eqn:R. cbn [fst o_fired]. intros I. apply in_app_or in I. apply in_or_app. destruct I as [I|I]; [left; auto|].
  right. left. pose proof (savers_data _ _ _ _ _ _ _ _ _ R) as F. rewrite Forall_forall in F. symmetry. apply (F _ I).
Qed.

(** ---- Logger *)
Lemma pairs_split data : same_shape data -> map snd (pairs data) = concat (map en_Y data) /\ map fst (pairs data) = concat (map en_X data).
Proof.
  induction 1 as [|e data L _ [I1 I2]]; [split; reflexivity|]. unfold pairs in *. cbn [map concat]. rewrite !map_app, I1, I2.
  assert (A : forall (a : list vec) (b : list Qc), length a = length b -> map snd (combine a b) = b /\ map fst (combine a b) = a).
  { induction a as [|x a IH]; intros [|y b] Lab; try discriminate; [split; reflexivity|]. injection Lab as Lab. destruct (IH b Lab) as [J1 J2]. simpl. rewrite J1, J2. auto. }
  destruct (A _ _ L) as [-> ->]. auto.
Qed.
Lemma logger_line_spec data : same_shape data -> pairs data <> [] ->
  exists it t y x pre post, logger_line data = Ok (it, t, y, x) /\
    (exists d0 last, data = d0 ++ [last] /\ it = en_iters last /\ t = en_time last) /\
    pairs data = pre ++ (x, y) :: post /\ (forall p, In p pre -> (y < snd p)%Qc) /\ (forall p, In p post -> (y <= snd p)%Qc).
Proof.
  intros S0 NE. destruct (pairs_split data S0) as [PY PX]. unfold logger_line. rewrite <- PY, <- PX.
  destruct (argmin (map snd (pairs data))) as [i|] eqn:AM.
  2:{ exfalso. destruct (pairs data); [auto|discriminate]. }
  destruct (rev data) as [|last rd] eqn:RV.
  { exfalso. apply (f_equal (@rev _)) in RV. rewrite rev_involutive in RV. subst. auto. }
  apply (f_equal (@rev _)) in RV. rewrite rev_involutive in RV. simpl in RV.
  destruct (argmin_spec _ _ AM) as (y & Hy & Hle & Hlt). rewrite Hy. rewrite nth_error_map in Hy. destruct (nth_error (pairs data) i) as [[x y']|] eqn:Hi; [|discriminate].
  simpl in Hy. injection Hy as ->. rewrite nth_error_map, Hi. cbn [option_map fst].
  exists (en_iters last), (en_time last), y, x. destruct (nth_error_split _ _ Hi) as (pre & post & E & L). exists pre, post. split; [reflexivity|]. split; [now exists (rev rd), last|].
  split; [exact E|]. split.
  - intros p I. apply In_nth_error in I. destruct I as [j J]. assert (LJ : j < i) by (rewrite <- L; apply nth_error_Some; congruence).
    apply (Hlt j); auto. rewrite nth_error_map, E, nth_error_app1 by lia. now rewrite J.
  - intros p I. apply In_nth_error in I. destruct I as [j J]. apply (Hle (i + 1 + j)). rewrite nth_error_map, E, nth_error_app2 by lia.
    replace (i + 1 + j - length pre) with (S j) by lia. simpl. now rewrite J.
Qed.
Lemma logger_monotone d1 d2 it1 t1 y1 x1 it2 t2 y2 x2 : same_shape (d1 ++ d2) -> logger_line d1 = Ok (it1, t1, y1, x1) -> logger_line (d1 ++ d2) = Ok (it2, t2, y2, x2) -> (y2 <= y1)%Qc.
Proof.
  intros S0 H1 H2. assert (SD : same_shape d1) by (unfold same_shape in *; rewrite Forall_app in S0; tauto).
  assert (N1 : pairs d1 <> []).
  { intros E. destruct (pairs_split d1 SD) as [PY _]. unfold logger_line in H1. rewrite <- PY, E in H1. discriminate. }
  assert (PP : pairs (d1 ++ d2) = pairs d1 ++ pairs d2) by (unfold pairs; now rewrite map_app, concat_app).
  assert (N2 : pairs (d1 ++ d2) <> []) by (rewrite PP; destruct (pairs d1); [congruence|discriminate]).
  destruct (logger_line_spec _ SD N1) as (i1 & s1 & z1 & w1 & p1 & q1 & L1 & _ & E1 & _).
  destruct (logger_line_spec _ S0 N2) as (i2 & s2 & z2 & w2 & p2 & q2 & L2 & _ & E2 & A2 & B2).
  rewrite H1 in L1. rewrite H2 in L2. injection L1 as <- <- <- <-. injection L2 as <- <- <- <-.
  assert (I : In (x1, y1) (pairs (d1 ++ d2))) by (rewrite PP, E1; apply in_or_app; left; apply in_elt).
  rewrite E2 in I. apply in_app_or in I. destruct I as [I|[[= <- <-]|I]].
  - apply Qclt_le_weak. apply (A2 _ I).
  - apply Qcle_refl.
  - apply (B2 _ I).
Qed.
