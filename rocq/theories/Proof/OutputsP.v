(** Proofs about the savers created from a configuration and the log. *)
From Coq Require Import String Ascii List ZArith QArith Qcanon Bool Lia.
From Verif.Model Require Import Py Space Optim Call Config Options Output Files Outputs Driver.
From Verif.Spec Require Import ConfigSpec OutputSpec OutputsSpec.
From Verif.Proof Require Import Num ConfigP OptionsP OutputP DriverP.
Import ListNotations.
Local Open Scope nat_scope.
Local Open Scope string_scope.
Local Open Scope list_scope.

Ltac jsteps H := repeat match type of H with
  | bind ?r _ = Ok _ => let E := fresh "E" in destruct r eqn:E; [cbn [bind] in H|discriminate H]
  end.
Lemma data_saver_ok q q' : data_saver q = Ok q' <-> q' = q /\ ((q0 < q)%Qc \/ q = z2q (-1)).
Proof.
  unfold data_saver. destruct (qclt q0 q || qceq q (z2q (-1))) eqn:E.
  - apply orb_true_iff in E. rewrite qclt_spec, qceq_spec in E. split; [intros [= <-]; auto|intros [-> _]; reflexivity].
  - apply orb_false_iff in E. rewrite qclt_false, qceq_false in E. split; [discriminate|]. intros [-> [L|L]]; destruct E as [E1 E2]; [|now elim E2].
    exfalso. apply (Qclt_not_le _ _ L E1).
Qed.
Lemma interval_ok v q : interval_of v = Ok q <-> reads_as v q /\ ((q0 < q)%Qc \/ q = z2q (-1)).
Proof.
  unfold interval_of, reads_as. destruct v as [d|l|s|x|b|]; try (split; [discriminate|intros [[[=]|[[[=] _]|[[=] _]]] _]]).
  - rewrite data_saver_ok. split; [intros [-> L]; auto|]. intros [[[= ->]|[[[=] _]|[[=] _]]] L]. auto.
  - rewrite data_saver_ok. destruct b.
    + split; [intros [-> L]; auto|]. intros [[[=]|[[_ ->]|[[=] _]]] L]. auto.
    + split; [intros [-> L]; auto|]. intros [[[=]|[[[=] _]|[_ ->]]] L]. auto.
Qed.
Lemma says_ok v s u : says v s = Ok u <-> exists x, v = JStr x /\ lower x = s.
Proof.
  unfold says. destruct v as [d|l|x|q|b|]; try (split; [discriminate|intros (x0 & [=] & _)]). destruct u. destruct (String.eqb_spec (lower x) s) as [E|E].
  - split; [intros _; eauto|reflexivity].
  - split; [discriminate|]. intros (y & [= <-] & F). contradiction.
Qed.
Lemma class_ok v k : saver_class v = Ok k <-> v = JStr (match k with SReport => "report" | SLogger => "logger" end).
Proof.
  unfold saver_class. destruct v as [d|l|s|q|b|]; try (split; discriminate). destruct (String.eqb_spec s "report") as [->|N].
  - destruct k; split; try reflexivity; discriminate.
  - destruct (String.eqb_spec s "logger") as [->|M].
    + destruct k; split; try reflexivity; discriminate.
    + split; [discriminate|]. intros [= ->]. destruct k; contradiction.
Qed.
Lemma file_ok k name prjpath prjname filename t f : file_of k name prjpath prjname filename t = Ok f <->
  exists dir file, prjpath = JStr dir /\ f = os_join dir file /\
    (filename = JStr file \/ filename = JNull /\ exists project, prjname = JStr project /\
       file = (name ++ "_" ++ project ++ "_" ++ gen_datestr t ++ match k with SReport => ".txt" | SLogger => ".csv" end)%string).
Proof.
  unfold file_of. split.
  - intro H. destruct filename as [d|l|s|q|b|]; try discriminate.
    + cbn [bind saver_file] in H. destruct prjpath; try discriminate. injection H as <-. eauto 6.
    + destruct prjname; try discriminate. cbn [bind saver_file] in H. destruct prjpath; try discriminate. injection H as <-. eexists. eexists. split; [reflexivity|]. split; [reflexivity|]. right. eauto.
  - intros (dir & file & -> & -> & [-> | (-> & project & -> & ->)]); reflexivity.
Qed.

Lemma make_saver_ok opens config t name ds m : make_saver opens config t name ds = Ok m <-> describes opens config t name ds m.
Proof.
  split.
  - intro H. unfold make_saver in H. jsteps H. injection H as <-.
    repeat match goal with E : jget _ _ = Ok _ |- _ => apply jget_find in E end. apply class_ok in E0. apply interval_ok in E4 as [R L]. apply file_ok in E7. subst.
    constructor; cbn [md_kind md_name md_interval md_file md_open]; auto; [eauto| | |eauto].
    + intros ->. jsteps E5. repeat match goal with E : jget _ _ = Ok _ |- _ => apply jget_find in E | E : says _ _ = Ok _ |- _ => apply says_ok in E as (? & -> & ?) end. eauto 8.
    + destruct E7 as (dir & file & -> & -> & [-> | (-> & project & -> & ->)]); exists dir; eexists; (split; [exact E1|]); (split; [reflexivity|]); [now left|right]. eauto.
  - intros [N K (v & Fv & R) L C (dir & file & Fd & Ff & FF) (pv & Fp) O]. destruct m as [k nm iv fl op]. cbn [md_kind md_name md_interval md_file md_open] in *. subst nm.
    unfold make_saver. rewrite (proj2 (jget_find _ _ _) K). cbn [bind]. rewrite (proj2 (class_ok _ _) eq_refl). cbn [bind]. rewrite (proj2 (jget_find _ _ _) Fd). cbn [bind].
    rewrite (proj2 (jget_find _ _ _) Fp). cbn [bind]. rewrite (proj2 (jget_find _ _ _) Fv). cbn [bind]. rewrite (proj2 (interval_ok v iv) (conj R L)). cbn [bind].
    assert (M : match k with SReport => Ok tt | SLogger => f <- jget ds "format" ;; _ <- says f "csv" ;; c <- jget ds "content" ;; says c "ybest" end = Ok tt).
    { destruct k; [reflexivity|]. destruct (C eq_refl) as (f & c & A1 & A2 & A3 & A4). rewrite (proj2 (jget_find _ _ _) A1). cbn [bind]. rewrite (proj2 (says_ok (JStr f) "csv" tt) (ex_intro _ f (conj eq_refl A2))). cbn [bind].
      rewrite (proj2 (jget_find _ _ _) A3). cbn [bind]. apply says_ok. eauto. }
    rewrite M. cbn [bind].
    assert (G : exists fn, jget ds "filename" = Ok fn /\ file_of k name (JStr dir) pv fn t = Ok fl).
    { destruct FF as [FF | (FF & project & Fq & ->)].
      - exists (JStr file). split; [now apply jget_find|]. apply file_ok. exists dir, file. auto.
      - exists JNull. split; [now apply jget_find|]. apply file_ok. exists dir. eexists. split; [reflexivity|]. split; [exact Ff|]. right. split; [reflexivity|]. exists project. split; [congruence|reflexivity]. }
    destruct G as (fn & G1 & G2). rewrite G1. cbn [bind]. rewrite G2. cbn [bind]. now rewrite O.
Qed.

(** the savers for a list of entries *)
Lemma all_described_nil opens config now i : all_described opens config now i [] [].
Proof. split; [reflexivity|]. intros [|j]; discriminate. Qed.
Lemma all_described_cons opens config now i name e es m ms : all_described opens config now i ((name, e) :: es) (m :: ms) <->
  describes opens config (now i) name e m /\ all_described opens config now (S i) es ms.
Proof.
  unfold all_described. split.
  - intros [L D]. split; [rewrite <- (Nat.add_0_r i); now apply (D 0)|]. split; [now injection L|]. intros j n e' m' A B. replace (S i + j) with (i + S j) by lia. apply (D (S j)); assumption.
  - intros [D [L R]]. split; [cbn; now rewrite L|]. intros [|j] n e' m' A B; cbn in A, B.
    + injection A as <- <-. injection B as <-. now rewrite Nat.add_0_r.
    + replace (i + S j) with (S i + j) by lia. now apply (R j).
Qed.
Definition emptied (ms : list made) : list string := map md_file (filter md_open ms).
Lemma make_savers_spec opens config now items : forall i,
  match make_savers opens config now i items with
  | (fs, Ok ms) => all_described opens config now i (entries items) ms /\ fs = emptied ms
  | (fs, Raise e) => exists pre name ds post ms, entries items = pre ++ (name, ds) :: post /\ all_described opens config now i pre ms /\
      make_saver opens config (now (i + length pre)) name ds = Raise e /\ fs = emptied ms
  end.
Proof.
  induction items as [|[name ds] items IH]; intro i; cbn [make_savers]; [split; [apply all_described_nil|reflexivity]|].
  unfold entries in *. cbn [filter snd]. destruct (is_dict ds) eqn:D; [|apply IH].
  destruct (make_saver opens config (now i) name ds) as [m|e] eqn:M.
  - specialize (IH (S i)). destruct (make_savers opens config now (S i) items) as [fs [ms|e]]; cbn [bind].
    + destruct IH as [A ->]. split; [apply all_described_cons; split; [now apply make_saver_ok|exact A]|]. unfold emptied. cbn [filter]. destruct (md_open m); reflexivity.
    + destruct IH as (pre & n & d & post & ms & E & A & F & ->). exists ((name, ds) :: pre), n, d, post, (m :: ms). rewrite E. split; [reflexivity|].
      split; [apply all_described_cons; split; [now apply make_saver_ok|exact A]|]. cbn [length]. replace (i + S (length pre)) with (S i + length pre) by lia. split; [exact F|]. unfold emptied. cbn [filter]. destruct (md_open m); reflexivity.
  - exists [], name, ds, (filter (fun kv => is_dict (snd kv)) items), []. split; [reflexivity|]. split; [apply all_described_nil|]. rewrite Nat.add_0_r. auto.
Qed.
Lemma described_unique opens config now : forall es i ms ms', all_described opens config now i es ms -> all_described opens config now i es ms' -> ms = ms'.
Proof.
  induction es as [|[name e] es IH]; intros i ms ms' A B.
  - destruct A as [A _], B as [B _]. destruct ms, ms'; try discriminate. reflexivity.
  - destruct ms as [|m ms], ms' as [|m' ms']; try (destruct A as [A _], B as [B _]; discriminate).
    apply all_described_cons in A as [A1 A2]. apply all_described_cons in B as [B1 B2]. apply make_saver_ok in A1, B1. f_equal; [congruence|]. eapply IH; eauto.
Qed.
Lemma described_legal opens config now : forall es i ms, all_described opens config now i es ms -> output_eng (map md_interval ms) = Ok (mk_engine (map md_interval ms) (map md_interval ms) [] []).
Proof.
  intros es i ms A. unfold output_eng. assert (M : mapM data_saver (map md_interval ms) = Ok (map md_interval ms)); [|now rewrite M].
  revert es i A. induction ms as [|m ms IH]; intros es i A; [reflexivity|]. destruct es as [|[name e] es]; [destruct A as [A _]; discriminate|].
  apply all_described_cons in A as [D A]. cbn [map mapM]. destruct D. rewrite (proj2 (data_saver_ok _ _) (conj eq_refl de_legal)). cbn [bind]. now rewrite (IH es (S i) A).
Qed.
(** From here on: the constructor of the engine *)
Lemma init_ok opens config now items : find config ["output"] = Some (JDict items) -> forall fs ms o,
  output_init opens config now = (fs, Ok (ms, o)) <->
  all_described opens config now 0 (entries items) ms /\ fs = emptied ms /\ output_eng (map md_interval ms) = Ok o.
Proof.
  intros F fs ms o. unfold output_init. rewrite (proj2 (jget_find _ _ _) F). pose proof (make_savers_spec opens config now items 0) as S.
  destruct (make_savers opens config now 0 items) as [fs' [ms'|e]]; cbn [bind].
  - destruct S as [A ->]. pose proof (described_legal _ _ _ _ _ _ A) as L. split.
    + intros [= <- <- <-]. auto.
    + intros (B & -> & O). pose proof (described_unique _ _ _ _ _ _ _ A B). subst ms'. rewrite L in O. injection O as <-. reflexivity.
  - split; [discriminate|]. intros (B & _ & _). exfalso. destruct S as (pre & n & d & post & ms' & E & A & M & _). rewrite E in B. destruct B as [L B].
    rewrite app_length in L. cbn [length] in L. destruct (nth_error ms (length pre)) as [m|] eqn:N; [|apply nth_error_None in N; lia].
    assert (N' : nth_error (pre ++ (n, d) :: post) (length pre) = Some (n, d)) by (rewrite nth_error_app2, Nat.sub_diag by lia; reflexivity).
    pose proof (B _ _ _ _ N' N) as D. apply make_saver_ok in D. congruence.
Qed.
Lemma init_fails opens config now items fs e : find config ["output"] = Some (JDict items) -> output_init opens config now = (fs, Raise e) ->
  exists pre name ds post ms, entries items = pre ++ (name, ds) :: post /\ all_described opens config now 0 pre ms /\
    (forall m, ~ describes opens config (now (length pre)) name ds m) /\ fs = emptied ms.
Proof.
  intros F. unfold output_init. rewrite (proj2 (jget_find _ _ _) F). pose proof (make_savers_spec opens config now items 0) as S.
  destruct (make_savers opens config now 0 items) as [fs' [ms'|e']]; cbn [bind]; [discriminate|]. intros [= <- <-].
  destruct S as (pre & n & d & post & ms & E & A & M & ->). exists pre, n, d, post, ms. split; [exact E|]. split; [exact A|]. split; [|reflexivity].
  intros m D. apply make_saver_ok in D. cbn [Nat.add] in M. congruence.
Qed.
Lemma init_no_section opens config now : (forall items, find config ["output"] <> Some (JDict items)) -> exists e, output_init opens config now = ([], Raise e).
Proof.
  intros N. unfold output_init. destruct (jget config "output") as [v|e] eqn:E; [|eauto]. apply jget_find in E. destruct v; eauto. now elim (N items).
Qed.

(** ---- the log *)
Definition line_of (hist : list entry) (l : log_line) : Prop :=
  exists it t y x, l = Line it t y x /\ logger_line hist = Ok (it, t, y, x).
Lemma log_fold opened i fired : forall w,
  fold_left (fun w f => if Nat.eqb (fst (fst f)) i then fst (log_save opened w (snd (fst f))) else w) fired w =
  fold_left (fun w d => fst (log_save opened w d)) (map (fun f => snd (fst f)) (filter (fun f : nat * list entry * option exn => Nat.eqb (fst (fst f)) i) fired)) w.
Proof.
  induction fired as [|f fired IH]; intro w; [reflexivity|]. cbn [fold_left filter]. destruct (Nat.eqb (fst (fst f)) i); cbn [map fold_left]; apply IH.
Qed.
Lemma log_lines (hists : list (list entry)) (n : nat) : (forall h, In h hists -> (exists l, line_of h l) /\ width h = n) ->
  exists ls, fold_left (fun w d => fst (log_save true w d)) hists [] = (match hists with [] => [] | _ => Headline n :: ls end) /\ List.Forall2 line_of hists ls.
Proof.
  intros H. assert (A : forall hs w, (forall h, In h hs -> exists l, line_of h l) -> w <> [] ->
    exists ls, fold_left (fun w d => fst (log_save true w d)) hs w = w ++ ls /\ List.Forall2 line_of hs ls).
  { induction hs as [|h hs IH]; intros w Hs Nw; [exists []; split; [now rewrite app_nil_r|constructor]|].
    destruct (Hs h (or_introl eq_refl)) as (l & it & t & y & x & -> & E). cbn [fold_left]. unfold log_save at 2. cbn [negb]. rewrite E. destruct w as [|l0 w]; [now elim Nw|]. cbn [fst].
    destruct (IH ((l0 :: w) ++ [Line it t y x])) as (ls & -> & F); [intros h' I; apply Hs; now right|discriminate|].
    exists (Line it t y x :: ls). split; [now rewrite <- app_assoc|]. constructor; [|exact F]. exists it, t, y, x. auto. }
  destruct hists as [|h hs]; [exists []; split; [reflexivity|constructor]|].
  destruct (H h (or_introl eq_refl)) as [(l & it & t & y & x & -> & E) W]. cbn [fold_left]. unfold log_save at 2. cbn [negb]. rewrite E, W. cbn [fst app].
  destruct (A hs [Headline n; Line it t y x]) as (ls & -> & F); [intros h' I; apply H; now right|discriminate|].
  exists (Line it t y x :: ls). split; [reflexivity|]. constructor; [|exact F]. exists it, t, y, x. auto.
Qed.
Lemma log_unopened hists w : fold_left (fun w d => fst (log_save false w d)) hists w = w.
Proof. induction hists; [reflexivity|]. cbn [fold_left]. exact IHhists. Qed.

Lemma histories_in ens h : In h (histories ens) -> exists post, ens = h ++ post /\ h <> [].
Proof.
  unfold histories. rewrite in_map_iff. intros (k & <- & I). apply in_seq in I. exists (skipn k ens). split; [now rewrite firstn_skipn|].
  destruct ens; [cbn in I; lia|]. destruct k; [lia|discriminate].
Qed.
Lemma loggable_history n ens h : loggable n ens -> In h (histories ens) -> (exists l, line_of h l /\ line_for h l) /\ width h = n.
Proof.
  intros L I. destruct (histories_in _ _ I) as (post & -> & N). apply Forall_app in L as [L _]. split.
  - assert (S : same_shape h) by (eapply Forall_impl; [|exact L]; intros e (_ & E & _); exact E).
    assert (P : pairs h <> []).
    { destruct h as [|e h]; [now elim N|]. inversion L as [|? ? (X & E & _) _]; subst. unfold pairs. cbn [map concat]. destruct (en_X e), (en_Y e); try discriminate; now elim X. }
    destruct (logger_line_spec h S P) as (it & t & y & x & pre & post' & H & LAST & E & A & B). exists (Line it t y x). split; [exists it, t, y, x; auto|].
    exists it, t, y, x. split; [reflexivity|]. split; [exact LAST|]. eauto.
  - destruct h as [|e h]; [now elim N|]. inversion L as [|? ? (X & E & R) _]; subst. cbn [width]. destruct (en_X e) as [|row rows]; [now elim X|]. now inversion R.
Qed.
Lemma savers_same save save' final data : (forall i, save i data = save' i data) -> forall ivs clock k, savers save final data ivs clock k = savers save' final data ivs clock k.
Proof.
  intros S. induction ivs as [|iv ivs IH]; intros [|c clock] k; try reflexivity. cbn [savers]. rewrite S, (IH clock (Datatypes.S k)). reflexivity.
Qed.
Lemma append_all_same save save' ens : forall ivs o, output_eng ivs = Ok o -> (forall i d, In d (histories ens) -> save i d = save' i d) ->
  append_all save o ens = append_all save' o ens.
Proof.
  intros ivs o O. induction ens as [|en ens IH] using rev_ind; intro H; [reflexivity|]. rewrite !append_all_snoc.
  rewrite histories_snoc in H. rewrite IH by (intros i d I; apply H, in_or_app; now left).
  assert (OD : o_data (append_all save' o ens) = ens).
  { rewrite append_all_data. unfold output_eng in O. destruct (mapM data_saver ivs); [|discriminate]. cbn in O. injection O as <-. reflexivity. }
  unfold append_iter. rewrite OD. now rewrite (savers_same save save') by (intro i; apply H, in_or_app; right; now left).
Qed.
Lemma log_file report ms o ens i m n interval : output_eng (map md_interval ms) = Ok o -> (forall f d, report f d = None) -> loggable n ens ->
  nth_error ms i = Some m -> md_kind m = SLogger -> md_open m = true -> md_interval m = z2q interval ->
  exists ls, log_of ms (append_all (save_of report ms) o ens) i = (match filter (due interval) (histories ens) with [] => [] | _ => Headline n :: ls end) /\
    List.Forall2 line_for (filter (due interval) (histories ens)) ls.
Proof.
  intros O R L N K P V. rewrite (append_all_same _ (fun _ _ => None) ens _ _ O).
  2:{ intros j d I. unfold save_of. destruct (nth_error ms j) as [mj|]; [|reflexivity]. destruct (md_kind mj); [apply R|]. unfold log_save. destruct (md_open mj); [|reflexivity]. cbn [negb].
      destruct (loggable_history _ _ _ L I) as [(l & (it & t & y & x & _ & ->) & _) _]. reflexivity. }
  assert (Ni : nth_error (map md_interval ms) i = Some (z2q interval)) by (rewrite nth_error_map, N; cbn; now rewrite V).
  destruct (engine_inv (fun _ _ => None) _ _ ens (fun _ _ => eq_refl) O) as (_ & E & _). destruct (E i interval Ni) as [_ S].
  unfold log_of. rewrite N, log_fold, P. unfold saved_by in S. rewrite S.
  set (hs := filter (due interval) (histories ens)) in *.
  assert (H : forall h, In h hs -> In h (histories ens)) by (intros h I; now apply filter_In in I).
  destruct (log_lines hs n) as (ls & -> & F).
  { intros h I. destruct (loggable_history _ _ _ L (H h I)) as [(l & A & _) B]. eauto. }
  exists ls. split; [reflexivity|]. clear - F H L. assert (G : forall h, In h hs -> In h (histories ens)) by exact H. clear H. induction F as [|h l hs' ls A F IH]; constructor.
  - destruct (loggable_history _ _ _ L (G h (or_introl eq_refl))) as [(l' & A' & B') _]. destruct A as (it & t & y & x & -> & E), A' as (it' & t' & y' & x' & -> & E'). rewrite E in E'. injection E' as <- <- <- <-. exact B'.
  - apply IH. intros h' I. apply G. now right.
Qed.
Lemma log_closed ms o i m : nth_error ms i = Some m -> md_open m = false -> log_of ms o i = [].
Proof. intros N P. unfold log_of. rewrite N, log_fold, P. apply log_unopened. Qed.

(** ---- the section is not read by the driver *)
Lemma jget_dset d k k' v : k <> k' -> jget (JDict (dset k' v d)) k = jget (JDict d) k.
Proof. intro N. cbn [jget]. now rewrite dget_dset_other. Qed.
Lemma driver_ignores d v A fc (rest : space -> res A) : let config := JDict d in let config' := JDict (dset "output" v d) in
  driver_run fc rest config' = driver_run fc rest config /\ get_model config' = get_model config /\ get_acquisition config' = get_acquisition config /\
  get_evaluator config' = get_evaluator config /\ run_time_limit config' = run_time_limit config.
Proof.
  cbn zeta. unfold driver_run, get_space, get_obj, get_model, get_acquisition, get_evaluator, run_time_limit. rewrite !jget_dset by discriminate. auto.
Qed.

Lemma ends_slash_last (d : string) (c : Ascii.ascii) : ends_slash (d ++ String c "") = Ascii.eqb c "/".
Proof.
  induction d as [|a d IH]; [reflexivity|]. cbn [append ends_slash]. rewrite IH. destruct d; reflexivity.
Qed.
Lemma append_assoc' (a b c : string) : ((a ++ b) ++ c = a ++ (b ++ c))%string.
Proof. induction a as [|x a IH]; [reflexivity|]. cbn [append]. now rewrite IH. Qed.
Lemma join_paths dir file : prefix "/" file = false ->
  (forall c, c <> "/"%char -> os_join (dir ++ String c "") file = (dir ++ String c ("/" ++ file))%string) /\
  os_join (dir ++ "/") file = (dir ++ "/" ++ file)%string /\ os_join "" file = file /\ forall abs, os_join dir ("/" ++ abs) = ("/" ++ abs)%string.
Proof.
  intro P. split; [|split; [|split]].
  - intros c C. unfold os_join. rewrite P, ends_slash_last. apply Ascii.eqb_neq in C. rewrite C, orb_false_r.
    assert (E : String.eqb (dir ++ String c "") "" = false) by (destruct dir; reflexivity). rewrite E, append_assoc'. reflexivity.
  - unfold os_join. rewrite P. change "/"%string with (String "/" "") at 1 2. rewrite ends_slash_last. cbn [Ascii.eqb Bool.eqb]. rewrite orb_true_r, append_assoc'. reflexivity.
  - unfold os_join. rewrite P. reflexivity.
  - intro abs. unfold os_join. destruct abs; reflexivity.
Qed.
