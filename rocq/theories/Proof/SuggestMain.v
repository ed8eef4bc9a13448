(** The acquisition optimizer and the evaluators: C19, C21, C23-C29. *)
From Coq Require Import String List ZArith QArith Qcanon Bool Lia Permutation Sorting.Sorted.
From Verif.Model Require Import Py Space Design Optim.
From Verif.Spec Require Import SpaceSpec DesignSpec ContextSpec SuggestSpec.
From Verif.Proof Require Import Num SpaceP RoundP ConstructP SpaceMain DesignP DesignMain ContextP ContextMain AnchorP SuggestP.
Import ListNotations.
Local Open Scope nat_scope.

Lemma acq_inv a ns g loc odm x fx : acq_optimize a ns g loc odm = Some (Ok (x, fx)) ->
  exists o anchors pts i, choose_optimizer (aq_optimizer a) = Ok o /\ acq_anchors a ns g odm = Some (Ok anchors) /\
    Forall2i (fun k x0 p => apply_optimizer (run_optimizer o (cm_noncontext_bounds (aq_cm a)) (loc k)) x0
                                (aq_f a) (aq_g a) odm (Some (aq_cm a)) (aq_space a) = Ok p) 0 anchors pts /\
    argmin (map snd pts) = Some i /\ nth_error pts i = Some (x, fx).
Proof.
  intro H. unfold acq_optimize in H. apply rbind_ok in H as (o & Ho & H). injection Ho as Ho. apply rbind_ok in H as (anchors & HA & H).
  injection H as H. apply bind_ok in H as (pts & Hp & H). exists o, anchors, pts. destruct (argmin (map snd pts)) as [i|] eqn:AM; [|discriminate].
  exists i. split; auto. split; auto. split; [apply mapMi_ok; auto|]. split; auto. unfold get in H. destruct (nth_error pts i); congruence.
Qed.

Lemma acq_anchors_in a ns g odm A : acq_anchors a ns g odm = Some (Ok A) ->
  exists design W, In design ["random"; "sobol"]%string /\ anchor_candidates (aq_space a) design ns g false (Some (aq_cm a)) = Some (Ok W) /\
    (forall x, In x A -> In x W /\ unknown odm x).
Proof.
  unfold acq_anchors. destruct (String.eqb _ _).
  - intro H. destruct (anchor_get_in _ _ _ _ _ _ _ _ _ _ H) as (W & W1 & W2). exists "random"%string, W. simpl. auto.
  - destruct (String.eqb _ _); [|discriminate]. destruct (aq_ts a); [|discriminate]. intro H.
    destruct (anchor_get_in _ _ _ _ _ _ _ _ _ _ H) as (W & W1 & W2). exists "sobol"%string, W. simpl. auto.
Qed.

(** C25 *)
Lemma acq_best a ns g loc odm x fx : acq_optimize a ns g loc odm = Some (Ok (x, fx)) ->
  exists o anchors ys i, choose_optimizer (aq_optimizer a) = Ok o /\ acq_anchors a ns g odm = Some (Ok anchors) /\
    length ys = length anchors /\
    (forall k x0 y, nth_error anchors k = Some x0 -> nth_error ys k = Some y -> candidate a o (loc k) odm x0 y) /\
    nth_error ys i = Some x /\ aq_f a x = Ok fx /\
    (forall j y, nth_error ys j = Some y -> exists fy, aq_f a y = Ok fy /\ (fx <= fy)%Qc /\ (j < i -> (fx < fy)%Qc)).
Proof.
  intro H. apply acq_inv in H as (o & anchors & pts & i & Ho & HA & HP & AM & HI).
  exists o, anchors, (map fst pts), i. split; auto. split; auto. split; [rewrite map_length; symmetry; eapply Forall2i_len; eauto|].
  destruct (argmin_spec _ _ AM) as (v & V1 & V2 & V3). rewrite nth_error_map, HI in V1. injection V1 as <-.
  assert (FY : forall j y fy, nth_error pts j = Some (y, fy) -> aq_f a y = Ok fy).
  { intros j y fy Hj. destruct (Forall2i_nth _ _ _ _ HP j _ Hj) as (x0 & _ & R). apply apply_inv in R as (? & ? & ? & ? & ? & ? & ? & ? & ? & F & _). exact F. }
  split; [|split; [|split]].
  - intros k x0 y Hk Hy. rewrite nth_error_map in Hy. destruct (nth_error pts k) as [(y' & fy)|] eqn:Ek; [|discriminate]. injection Hy as <-.
    destruct (Forall2i_nth _ _ _ _ HP k _ Ek) as (x0' & E0 & R). rewrite Hk in E0. injection E0 as <-. simpl in R.
    apply apply_inv in R as (x0n & v & row & r & R1 & _ & R3 & R4 & R5 & _ & _ & R8). exists x0n, v, row, r. auto 10.
  - rewrite nth_error_map, HI. reflexivity.
  - eapply FY; eauto.
  - intros j y Hj. rewrite nth_error_map in Hj. destruct (nth_error pts j) as [(y' & fy)|] eqn:Ej; [|discriminate]. injection Hj as <-.
    exists fy. split; [eapply FY; eauto|]. split.
    + apply (V2 j fy). rewrite nth_error_map, Ej. reflexivity.
    + intro L. apply (V3 j fy); auto. rewrite nth_error_map, Ej. reflexivity.
Qed.

(** C24 *)
Lemma acq_unknown a ns g loc odm x fx : acq_optimize a ns g loc odm = Some (Ok (x, fx)) -> unknown odm x.
Proof.
  intro H. apply acq_inv in H as (o & anchors & pts & i & Ho & HA & HP & AM & HI).
  destruct (Forall2i_nth _ _ _ _ HP i _ HI) as (x0 & _ & R). apply apply_inv in R as (? & ? & ? & ? & ? & ? & ? & ? & ? & ? & F & _). exact F.
Qed.

Section Eval.
  Variables (ds : list descr) (cs : option (list constr)) (sp : space) (oc : option context) (cm : ctxmgr).
  Hypothesis D : design_space ds cs = Ok sp.
  Hypothesis W : Forall wf_kind (kinds sp).
  Hypothesis CC : Forall canonical_cats (kinds sp).
  Hypothesis G : good_context sp oc.
  Hypothesis E : context_manager sp oc = Ok cm.

  Lemma acq_good a ns g loc odm x fx : aq_space a = sp -> aq_cm a = cm -> good_gen g -> 1 <= ns ->
    acq_optimize a ns g loc odm = Some (Ok (x, fx)) -> good_row sp oc x.
  Proof.
    intros Es Ec GG N H. apply acq_inv in H as (o & anchors & pts & i & Ho & HA & HP & AM & HI).
    destruct (Forall2i_nth _ _ _ _ HP i _ HI) as (x0 & N0 & R). rewrite Es, Ec in R.
    eapply apply_good; eauto. apply acq_anchors_in in HA as (design & X & HD & HX & HI2). rewrite Es, Ec in HX.
    destruct (candidates_good ds cs sp oc cm D W CC G E design ns g false X HD GG N HX) as (F & _). rewrite Forall_forall in F.
    apply F. apply HI2. eapply nth_error_In; eauto.
  Qed.

  Lemma acq_total a ns g loc odm A o : aq_space a = sp -> aq_cm a = cm -> good_gen g -> 1 <= ns ->
    acq_anchors a ns g odm = Some (Ok A) -> A <> [] -> choose_optimizer (aq_optimizer a) = Ok o ->
    (forall x, design_point (kinds sp) x -> exists y, aq_f a x = Ok y) ->
    (forall dm, odm = Some dm -> dm_space dm = sp) ->
    (forall k x0 f h, exists v, run_optimizer o (cm_noncontext_bounds cm) (loc k) x0 f h = Ok v /\ length v = length x0) ->
    exists x fx, acq_optimize a ns g loc odm = Some (Ok (x, fx)).
  Proof.
    intros Es Ec GG N HA NA Ho TF SD TO. unfold acq_optimize. rewrite Ho, HA. cbn [rbind]. rewrite Es, Ec.
    pose proof HA as HA'. apply acq_anchors_in in HA' as (design & X & HD & HX & HI2). rewrite Es, Ec in HX.
    destruct (candidates_good ds cs sp oc cm D W CC G E design ns g false X HD GG N HX) as (F & _). rewrite Forall_forall in F.
    assert (Q : forall k B, (forall x, In x B -> good_row sp oc x /\ unknown odm x) ->
      exists pts, mapMi (fun k x0 => apply_optimizer (run_optimizer o (cm_noncontext_bounds cm) (loc k)) x0
                                (aq_f a) (aq_g a) odm (Some cm) sp) k B = Ok pts /\ length pts = length B).
    { intros k B. revert k. induction B as [|x0 B IH]; intros k HB; [exists []; auto|]. destruct (HB x0 (or_introl eq_refl)) as (H1 & H2).
      destruct (apply_total ds cs sp oc cm D W G E (run_optimizer o (cm_noncontext_bounds cm) (loc k)) x0 (aq_f a) (aq_g a) odm H1 H2 TF SD) as (y & fy & Ay).
      { intros x0n _. apply TO. }
      destruct (IH (S k)) as (pts & P1 & P2); [intros; apply HB; right; auto|]. exists ((y, fy) :: pts). cbn [mapMi]. rewrite Ay. cbn [bind]. rewrite P1. simpl. auto. }
    destruct (Q 0 A) as (pts & P1 & P2). { intros x Hx. split; [apply F|]; apply HI2; auto. }
    rewrite P1. cbn [bind]. destruct pts as [|p pts]; [destruct A; [congruence|discriminate]|].
    destruct (argmin (map snd (p :: pts))) as [i|] eqn:AM; [|discriminate].
    destruct (argmin_spec _ _ AM) as (v & V1 & _). rewrite nth_error_map in V1. destruct (nth_error (p :: pts) i) as [(x & fx)|] eqn:Ei; [|discriminate].
    exists x, fx. rewrite (get_some _ _ _ Ei). reflexivity.
  Qed.

  (** evaluators *)
  Lemma sequential_good a ns g loc odm B : aq_space a = sp -> aq_cm a = cm -> good_gen g -> 1 <= ns ->
    sequential_batch a ns g loc odm = Some (Ok B) -> exists x, B = [x] /\ good_row sp oc x /\ unknown odm x.
  Proof.
    intros Es Ec GG N H. unfold sequential_batch in H. apply rbind_ok in H as ((x & fx) & Hx & H). injection H as <-. exists x.
    split; auto. split; [eapply acq_good; eauto|eapply acq_unknown; eauto].
  Qed.
End Eval.

(** ---- batches with a duplicate manager ---- *)
Lemma batch_loop_P (P : vec -> Prop) sp size opt : forall anchors k batch seen B,
  (forall k a x, In a anchors -> opt k a = Ok x -> P x) -> Forall P anchors -> Forall P batch ->
  batch_loop sp size opt k anchors batch seen = Ok B -> Forall P B.
Proof.
  induction anchors as [|a t IH]; intros k batch seen B HO HA HB H; simpl in H; [injection H as <-; auto|].
  inversion HA; subst. apply bind_ok in H as (x & Hx & H). apply bind_ok in H as (zx & Hz & H). apply bind_ok in H as ((b & s) & Hs & H).
  assert (Fb : Forall P b).
  { destruct (vmem zx seen).
    - apply bind_ok in Hs as (za & Hza & Hs). destruct (vmem za seen); injection Hs as <- <-; auto. apply Forall_app; auto.
    - injection Hs as <- <-. apply Forall_app. split; auto. constructor; auto. eapply HO; eauto. left; auto. }
  simpl in H. destruct (Nat.eqb (length b) size); [injection H as <-; auto|].
  eapply (IH (S k) b s B); eauto. intros; eapply HO; eauto. right; auto.
Qed.

(** the rows chosen so far have the user forms [ts], which are new and pairwise distinct *)
Definition batch_inv (sp : space) (pts : list vec) (batch : mat) (seen : list vec) : Prop :=
  exists ts, Forall2 (user_form sp) batch ts /\ NoDup ts /\ (forall t, In t ts -> ~ In t pts) /\ (forall t, In t seen <-> In t ts \/ In t pts).
Lemma batch_inv_add sp pts batch seen x t : batch_inv sp pts batch seen -> user_form sp x t -> ~ In t seen ->
  batch_inv sp pts (batch ++ [x]) (t :: seen).
Proof.
  intros (ts & F & N & Dj & S) U Nt. exists (ts ++ [t]). rewrite S in Nt. split; [apply Forall2_app; auto|]. split; [|split].
  - apply NoDup_app2; auto. repeat constructor; auto. intros a Ha [<-|[]]. tauto.
  - intros u Hu. apply in_app_or in Hu as [Hu|[<-|[]]]; auto.
  - intro u. simpl. rewrite S, in_app_iff. simpl. tauto.
Qed.
Lemma batch_loop_inv sp pts size opt : forall anchors k batch seen B, batch_inv sp pts batch seen ->
  batch_loop sp size opt k anchors batch seen = Ok B -> exists seen', batch_inv sp pts B seen'.
Proof.
  induction anchors as [|a t IH]; intros k batch seen B I H; simpl in H; [injection H as <-; eauto|].
  apply bind_ok in H as (x & Hx & H). apply bind_ok in H as (zx & Hz & H). apply bind_ok in H as ((b & s) & Hs & H).
  apply zip_tuple_ok in Hz.
  assert (Ib : batch_inv sp pts b s).
  { destruct (vmem zx seen) eqn:M.
    - apply bind_ok in Hs as (za & Hza & Hs). apply zip_tuple_ok in Hza. destruct (vmem za seen) eqn:M2; injection Hs as <- <-; auto.
      apply vmem_false in M2. apply batch_inv_add; auto.
    - injection Hs as <- <-. apply vmem_false in M. apply batch_inv_add; auto. }
  simpl in H. destruct (Nat.eqb (length b) size); [injection H as <-; eauto|]. eapply IH; eauto.
Qed.
Lemma batch_loop_size sp size opt : forall anchors k batch seen B, length batch < size ->
  batch_loop sp size opt k anchors batch seen = Ok B -> length B <= size /\ length batch <= length B.
Proof.
  induction anchors as [|a t IH]; intros k batch seen B L H; simpl in H; [injection H as <-; lia|].
  apply bind_ok in H as (x & Hx & H). apply bind_ok in H as (zx & Hz & H). apply bind_ok in H as ((b & s) & Hs & H).
  assert (Lb : length b <= S (length batch) /\ length batch <= length b).
  { destruct (vmem zx seen).
    - apply bind_ok in Hs as (za & Hza & Hs). destruct (vmem za seen); injection Hs as <- <-; [lia|]. rewrite app_length. simpl. lia.
    - injection Hs as <- <-. rewrite app_length. simpl. lia. }
  simpl in H. destruct (Nat.eqb_spec (length b) size); [injection H as <-; lia|]. apply IH in H; lia.
Qed.
Lemma batch_loop_length sp size opt : forall anchors k batch seen B,
  batch_loop sp size opt k anchors batch seen = Ok B -> length B <= length batch + length anchors.
Proof.
  induction anchors as [|a t IH]; intros k batch seen B H; simpl in H; [injection H as <-; lia|].
  apply bind_ok in H as (x & Hx & H). apply bind_ok in H as (zx & Hz & H). apply bind_ok in H as ((b & s) & Hs & H).
  assert (Lb : length b <= S (length batch)).
  { destruct (vmem zx seen).
    - apply bind_ok in Hs as (za & Hza & Hs). destruct (vmem za seen); injection Hs as <- <-; [lia|]. rewrite app_length. simpl. lia.
    - injection Hs as <- <-. rewrite app_length. simpl. lia. }
  simpl in H. destruct (Nat.eqb (length b) size); [injection H as <-; simpl; lia|]. apply IH in H. simpl. lia.
Qed.
Lemma batch_loop_prefix sp size opt : forall anchors k batch seen B,
  batch_loop sp size opt k anchors batch seen = Ok B -> exists r, B = batch ++ r.
Proof.
  induction anchors as [|a t IH]; intros k batch seen B H; simpl in H; [injection H as <-; exists []; rewrite app_nil_r; auto|].
  apply bind_ok in H as (x & Hx & H). apply bind_ok in H as (zx & Hz & H). apply bind_ok in H as ((b & s) & Hs & H).
  assert (exists r, b = batch ++ r) as (r & ->).
  { destruct (vmem zx seen).
    - apply bind_ok in Hs as (za & Hza & Hs). destruct (vmem za seen); injection Hs as <- <-; eauto. exists []. rewrite app_nil_r; auto.
    - injection Hs as <- <-. eauto. }
  simpl in H. destruct (Nat.eqb _ size); [injection H as <-; eauto|]. apply IH in H as (r' & ->). exists (r ++ r'). rewrite app_assoc. auto.
Qed.

Lemma dedup_inv sp size opt dm anchors x0 B : dm_space dm = sp -> dedup_batch sp size opt dm anchors x0 = Ok B ->
  (forall x, x0 = Some x -> unknown (Some dm) x) ->
  B <> [] /\ distinct_rows sp B /\ Forall (unknown (Some dm)) B.
Proof.
  intros Es H U0. unfold dedup_batch in H. apply bind_ok in H as ((b & s) & Hs & H). apply bind_ok in H as (b' & Hb & H).
  assert (EB : b' = B) by (destruct b'; [discriminate|congruence]). assert (NB : B <> []) by (destruct b'; [discriminate|congruence]). subst b'.
  split; auto.
  assert (I0 : batch_inv sp (dm_points dm) [] (dm_points dm)).
  { exists []. split; [constructor|]. split; [constructor|]. simpl. split; [tauto|]. intro; tauto. }
  assert (I : batch_inv sp (dm_points dm) b s).
  { destruct x0 as [x|]; [|injection Hs as <- <-; auto]. destruct (np_any (Some [x])); [|injection Hs as <- <-; auto].
    apply bind_ok in Hs as (zx & Hz & Hs). injection Hs as <- <-. apply zip_tuple_ok in Hz.
    apply (batch_inv_add sp (dm_points dm) [] (dm_points dm) x zx I0 Hz).
    destruct (U0 x eq_refl) as (t & Ut & Nt). rewrite Es in Ut. rewrite (user_form_unique _ _ _ _ Hz Ut). exact Nt. }
  apply (batch_loop_inv sp (dm_points dm)) in Hb as (s' & ts & F & N & Dj & _); auto. split; [exists ts; auto|].
  clear -F Dj Es. induction F as [|x t B ts Hx F IH]; constructor.
  - exists t. rewrite Es. split; auto. apply Dj. left; auto.
  - apply IH. intros u Hu. apply Dj. right; auto.
Qed.

Lemma np_any_row x : np_any (Some [x]) = true <-> has_nonzero [x].
Proof.
  simpl. rewrite orb_false_r, existsb_exists. unfold has_nonzero. split.
  - intros (y & Hy & Q). exists x, y. split; [left; auto|]. split; auto. intros ->. vm_compute in Q. discriminate.
  - intros (r & y & [<-|[]] & Hy & N). exists y. split; auto. apply negb_true_iff. apply qceq_false. exact N.
Qed.
Lemma dedup_first sp size opt dm anchors x B : has_nonzero [x] -> dedup_batch sp size opt dm anchors (Some x) = Ok B -> hd_error B = Some x.
Proof.
  intros NZ H. unfold dedup_batch in H. apply np_any_row in NZ. rewrite NZ in H. apply bind_ok in H as ((b & s) & Hs & H).
  apply bind_ok in Hs as (zx & _ & Hs). injection Hs as <- <-. apply bind_ok in H as (b' & Hb & H).
  apply batch_loop_prefix in Hb as (r & ->). simpl in H. injection H as <-. reflexivity.
Qed.
Lemma dedup_size sp size opt dm anchors x0 B : dedup_batch sp size opt dm anchors x0 = Ok B ->
  (x0 = None -> 1 <= size -> length B <= size) /\ (2 <= size -> length B <= size) /\ length B <= S (length anchors).
Proof.
  intro H. unfold dedup_batch in H. apply bind_ok in H as ((b & s) & Hs & H). apply bind_ok in H as (b' & Hb & H).
  assert (b' = B) as -> by (destruct b'; [discriminate|congruence]).
  assert (L : length b <= 1 /\ (x0 = None -> length b = 0)).
  { destruct x0 as [x|]; [|injection Hs as <- <-; simpl; auto]. destruct (np_any (Some [x])); [|injection Hs as <- <-; simpl; auto].
    apply bind_ok in Hs as (zx & _ & Hs). injection Hs as <- <-. simpl. split; [auto|discriminate]. }
  simpl in Hb. split; [|split].
  - intros N S1. apply batch_loop_size in Hb; [tauto|]. destruct L as (_ & L). rewrite (L N). lia.
  - intro S2. apply batch_loop_size in Hb; [tauto|]. lia.
  - apply batch_loop_length in Hb. lia.
Qed.
Lemma batch_loop_total sp size opt : forall anchors k batch seen,
  (forall k a, In a anchors -> exists x t, opt k a = Ok x /\ user_form sp x t) ->
  (forall a, In a anchors -> exists t, user_form sp a t) ->
  exists B, batch_loop sp size opt k anchors batch seen = Ok B.
Proof.
  induction anchors as [|a l IH]; intros k batch seen H1 H2; simpl; [eauto|].
  destruct (H1 k a (or_introl eq_refl)) as (x & t & -> & U). cbn [bind]. apply zip_tuple_ok in U. rewrite U. cbn [bind].
  assert (exists st, (if vmem t seen then za <- zip_and_tuple sp a ;; (if vmem za seen then Ok (batch, seen) else Ok (batch ++ [a], za :: seen))
                      else Ok (batch ++ [x], t :: seen)) = Ok st) as (st & ->).
  { destruct (vmem t seen); [|eauto]. destruct (H2 a (or_introl eq_refl)) as (ta & Ua). apply zip_tuple_ok in Ua. rewrite Ua. cbn [bind].
    destruct (vmem ta seen); eauto. }
  cbn [bind]. destruct (Nat.eqb _ size); [eauto|]. apply IH; intros; [apply H1|apply H2]; right; auto.
Qed.
(** the first anchor is either taken or replaced, so a batch with an anchor is not empty *)
Lemma batch_loop_ne sp size opt a l k dm B : unknown (Some dm) a -> dm_space dm = sp ->
  batch_loop sp size opt k (a :: l) [] (dm_points dm) = Ok B -> B <> [].
Proof.
  intros (t & U & N) Es H. simpl in H.
  apply bind_ok in H as (x & Hx & H). apply bind_ok in H as (zx & Hz & H). apply bind_ok in H as ((b & s) & Hs & H).
  assert (b <> []).
  { destruct (vmem zx (dm_points dm)).
    - apply bind_ok in Hs as (za & Hza & Hs). apply zip_tuple_ok in Hza. rewrite <- Es in Hza. rewrite (user_form_unique _ _ _ _ Hza U) in Hs.
      apply vmem_false in N. rewrite N in Hs. injection Hs as <- <-. discriminate.
    - injection Hs as <- <-. discriminate. }
  simpl in H. destruct (Nat.eqb (length b) size); [injection H as <-; auto|]. apply batch_loop_prefix in H as (r & ->). destruct b; [congruence|discriminate].
Qed.
Lemma dedup_total sp size opt dm anchors x0 : dm_space dm = sp -> anchors <> [] -> Forall (unknown (Some dm)) anchors ->
  (forall k a, In a anchors -> exists x t, opt k a = Ok x /\ user_form sp x t) ->
  (forall x, x0 = Some x -> unknown (Some dm) x) ->
  exists B, dedup_batch sp size opt dm anchors x0 = Ok B.
Proof.
  intros Es NE U HO U0. unfold dedup_batch.
  assert (UA : forall a, In a anchors -> exists t, user_form sp a t).
  { rewrite Forall_forall in U. intros a Ha. destruct (U a Ha) as (t & Ut & _). rewrite Es in Ut. eauto. }
  assert (CASE : (exists x t, x0 = Some x /\ np_any (Some [x]) = true /\ zip_and_tuple sp x = Ok t) \/
                 match x0 with
                 | Some x => if np_any (Some [x]) then zx <- zip_and_tuple sp x ;; Ok ([x], zx :: dm_points dm) else Ok ([], dm_points dm)
                 | None => Ok ([], dm_points dm)
                 end = Ok ([], dm_points dm)).
  { destruct x0 as [x|]; [|right; auto]. destruct (np_any (Some [x])) eqn:NP; [|right; auto]. left.
    destruct (U0 x eq_refl) as (t & Ut & _). rewrite Es in Ut. apply zip_tuple_ok in Ut. eauto 6. }
  destruct CASE as [(x & t & -> & NP & Z)|C].
  - rewrite NP, Z. cbn [bind fst snd]. destruct (batch_loop_total sp size opt anchors 0 [x] (t :: dm_points dm) HO UA) as (B & HB). rewrite HB. cbn [bind].
    apply batch_loop_prefix in HB as (r & ->). simpl. eauto.
  - rewrite C. cbn [bind fst snd]. destruct (batch_loop_total sp size opt anchors 0 [] (dm_points dm) HO UA) as (B & HB). rewrite HB. cbn [bind].
    destruct anchors as [|a l]; [congruence|]. apply batch_loop_ne in HB; auto; [|inversion U; auto]. destruct B; [congruence|eauto].
Qed.

Lemma anchor_get_ne sp design ns g scores k odm u ocm A : argsorts (g_argsort g) -> 1 <= k ->
  (forall V s, scores V = Ok s -> length s = length V) ->
  anchor_get sp design ns g scores k odm u ocm = Some (Ok A) -> A <> [].
Proof.
  intros SA K LS H. apply anchor_get_inv in H as (W & V & s & H1 & H2 & H3 & H4 & H5). apply mapM_length in H5.
  rewrite firstn_length in H5. specialize (LS _ _ H4). destruct (SA s) as (P & _). apply Permutation_length in P. rewrite seq_length in P.
  destruct V; [congruence|]. destruct A; [|discriminate]. simpl in *. lia.
Qed.
Lemma random_scores_len V s : random_scores V = Ok s -> length s = length V.
Proof. intros [= <-]. rewrite map_length, seq_length. auto. Qed.

Section Eval2.
  Variables (ds : list descr) (cs : option (list constr)) (sp : space) (oc : option context) (cm : ctxmgr).
  Hypothesis D : design_space ds cs = Ok sp.
  Hypothesis W : Forall wf_kind (kinds sp).
  Hypothesis CC : Forall canonical_cats (kinds sp).
  Hypothesis G : good_context sp oc.
  Hypothesis E : context_manager sp oc = Ok cm.

  Lemma anchors_good design ns g scores k odm u A : In design ["random"; "sobol"]%string -> good_gen g -> 1 <= ns ->
    anchor_get sp design ns g scores k odm u (Some cm) = Some (Ok A) -> Forall (fun x => good_row sp oc x /\ unknown odm x) A.
  Proof.
    intros HD GG N H. apply anchor_get_in in H as (X & HX & HI).
    destruct (candidates_good ds cs sp oc cm D W CC G E _ _ _ _ _ HD GG N HX) as (F & _). rewrite Forall_forall in F. apply Forall_forall.
    intros x Hx. split; [apply F|]; apply HI; auto.
  Qed.

  Lemma random_inv a size ns ns' g g' loc odm B : random_batch a size ns ns' g g' loc odm = Some (Ok B) ->
    exists p fp anchors, acq_optimize a ns g loc odm = Some (Ok (p, fp)) /\ random_anchors a size ns' g' odm = Some (Ok anchors) /\
      match odm with
      | None => B = p :: match size with O => removelast anchors | S k => firstn k anchors end
      | Some dm => dedup_batch (aq_space a) size (fun _ x => Ok x) dm anchors (Some p) = Ok B
      end.
  Proof.
    unfold random_batch. destruct odm as [dm|]; intro H.
    - apply rbind_ok in H as (A & HA & H). apply rbind_ok in H as ((p & fp) & Hp & H). injection H as H. exists p, fp, A. auto.
    - apply rbind_ok in H as ((p & fp) & Hp & H). apply rbind_ok in H as (A & HA & H). injection H as H. exists p, fp, A. auto.
  Qed.

  Lemma removelast_in {A} (l : list A) x : In x (removelast l) -> In x l.
  Proof. induction l as [|a l IH]; [auto|]. destruct l as [|b l]; [simpl; tauto|]. intros [->|H]; [left; auto|right; auto]. Qed.
  Lemma firstn_in {A} k (l : list A) x : In x (firstn k l) -> In x l.
  Proof. revert l. induction k; destruct l; simpl; auto; try tauto. intros [->|H]; auto. Qed.

  Lemma random_good a size ns ns' g g' loc odm B : aq_space a = sp -> aq_cm a = cm -> good_gen g -> good_gen g' -> 1 <= ns -> 1 <= ns' ->
    random_batch a size ns ns' g g' loc odm = Some (Ok B) -> Forall (good_row sp oc) B.
  Proof.
    intros Es Ec GG GG' N N' H. apply random_inv in H as (p & fp & A & HP & HA & HB).
    pose proof (acq_good ds cs sp oc cm D W CC G E _ _ _ _ _ _ _ Es Ec GG N HP) as Gp.
    unfold random_anchors in HA. rewrite Es, Ec in HA.
    pose proof (anchors_good _ _ _ _ _ _ _ _ (or_introl eq_refl) GG' N' HA) as FA. rewrite Forall_forall in FA.
    destruct odm as [dm|].
    - unfold dedup_batch in HB. apply bind_ok in HB as ((b & s) & Hs & HB). apply bind_ok in HB as (b' & Hb & HB).
      assert (b' = B) as -> by (destruct b'; [discriminate|congruence]).
      eapply batch_loop_P; [| | |exact Hb].
      + intros k x y Hx [= <-]. apply FA; auto.
      + apply Forall_forall. intros x Hx. apply FA; auto.
      + destruct (np_any (Some [p])); [|injection Hs as <- <-; constructor]. apply bind_ok in Hs as (zx & _ & Hs). injection Hs as <- <-.
        repeat constructor; apply Gp.
    - subst B. constructor; auto. apply Forall_forall. intros x Hx. apply FA. destruct size; [apply removelast_in|eapply firstn_in]; eauto.
  Qed.

  Lemma thompson_point_good a loc odm k x0 x : aq_space a = sp -> good_row sp oc x0 ->
    thompson_point a loc odm (Some cm) k x0 = Ok x -> good_row sp oc x.
  Proof.
    intros Es G0 H. unfold thompson_point in H. cbn [bind] in H. apply bind_ok in H as ((y & fy) & Hy & H). rewrite Es in *.
    pose proof (apply_good ds cs sp oc cm D W G E _ _ _ _ _ _ _ Hy G0) as Gy. apply bind_ok in H as (rs & Hr & H).
    destruct rs as [|r [|]]; try discriminate. injection H as <-. eapply round_good; eauto.
    - eapply good_row_length; eauto.
    - apply Gy.
  Qed.
  Lemma thompson_good a ts size ns' g' loc odm B : aq_space a = sp -> good_gen g' -> 1 <= ns' ->
    thompson_batch a ts size ns' g' loc odm (Some cm) = Some (Ok B) -> Forall (good_row sp oc) B.
  Proof.
    intros Es GG N H. unfold thompson_batch in H. apply rbind_ok in H as (A & HA & H). injection H as H. rewrite Es in HA.
    pose proof (anchors_good _ _ _ _ _ _ _ _ (or_introl eq_refl) GG N HA) as FA. rewrite Forall_forall in FA. destruct odm as [dm|].
    - unfold dedup_batch in H. cbn [bind fst snd] in H. apply bind_ok in H as (b' & Hb & HB).
      assert (b' = B) as -> by (destruct b'; [discriminate|congruence]).
      eapply batch_loop_P; [| | |exact Hb].
      + intros k x y Hx Hy. eapply thompson_point_good; eauto. apply FA; auto.
      + apply Forall_forall. intros x Hx. apply FA; auto.
      + constructor.
    - apply bind_ok in H as (b' & Hb & H). assert (b' = B) as -> by (destruct b'; [discriminate|congruence]).
      apply mapMi_ok in Hb. apply Forall_forall. intros x Hx. apply In_nth_error in Hx as (j & Hj).
      destruct (Forall2i_nth _ _ _ _ Hb j _ Hj) as (x0 & N0 & R). eapply thompson_point_good; eauto. apply FA.
      apply nth_error_In in N0. eapply firstn_in; eauto.
  Qed.

  (** C26 *)
  Lemma random_dedup a size ns ns' g g' loc dm B : aq_space a = sp -> dm_space dm = sp ->
    random_batch a size ns ns' g g' loc (Some dm) = Some (Ok B) ->
    B <> [] /\ distinct_rows sp B /\ Forall (unknown (Some dm)) B /\ (2 <= size -> length B <= size) /\
    (argsorts (g_argsort g') -> length B <= S (5 * size)).
  Proof.
    intros Es Ed H. apply random_inv in H as (p & fp & A & HP & HA & HB). rewrite Es in HB.
    destruct (dedup_inv sp size _ dm A (Some p) B Ed HB) as (B1 & B2 & B3).
    { intros x [= <-]. eapply acq_unknown; eauto. }
    destruct (dedup_size _ _ _ _ _ _ _ HB) as (_ & S2 & S3). split; auto. split; auto. split; auto. split; auto. intro SA.
    unfold random_anchors in HA. apply anchor_get_inv in HA as (X & V & s & _ & _ & _ & _ & M). apply mapM_length in M.
    rewrite firstn_length in M. lia.
  Qed.
  Lemma random_dedup_total a size ns ns' g g' loc dm p fp A : aq_space a = sp -> dm_space dm = sp -> 1 <= size ->
    argsorts (g_argsort g') -> acq_optimize a ns g loc (Some dm) = Some (Ok (p, fp)) -> random_anchors a size ns' g' (Some dm) = Some (Ok A) ->
    exists B, random_batch a size ns ns' g g' loc (Some dm) = Some (Ok B).
  Proof.
    intros Es Ed S1 SA HP HA. unfold random_batch. rewrite HA. cbn [rbind]. rewrite HP. cbn [rbind fst]. rewrite Es.
    unfold random_anchors in HA. pose proof (anchor_get_ne _ _ _ _ _ _ _ _ _ _ SA (ltac:(lia) : 1 <= 5 * size) random_scores_len HA) as NE.
    apply anchor_get_in in HA as (X & HX & HI).
    destruct (dedup_total sp size (fun _ x => Ok x) dm A (Some p)) as (B & HB); auto.
    - apply Forall_forall. intros x Hx. apply HI; auto.
    - intros k x Hx. destruct (HI x Hx) as (_ & t & Ut & _). rewrite Ed in Ut. eauto.
    - intros x [= <-]. eapply acq_unknown; eauto.
    - exists B. f_equal. exact HB.
  Qed.
  Lemma thompson_dedup a ts size ns' g' loc dm ocm B : aq_space a = sp -> dm_space dm = sp ->
    thompson_batch a ts size ns' g' loc (Some dm) ocm = Some (Ok B) ->
    B <> [] /\ distinct_rows sp B /\ Forall (unknown (Some dm)) B /\ (1 <= size -> length B <= size).
  Proof.
    intros Es Ed H. unfold thompson_batch in H. apply rbind_ok in H as (A & HA & H). injection H as H. rewrite Es in H.
    destruct (dedup_inv sp size _ dm A None B Ed H) as (B1 & B2 & B3); [discriminate|].
    destruct (dedup_size _ _ _ _ _ _ _ H) as (S1 & _). auto.
  Qed.

  (** C28 *)
  Lemma nodedup_anchors_len ns g scores k A : good_gen g -> 1 <= ns -> argsorts (g_argsort g) ->
    (forall V s, scores V = Ok s -> length s = length V) ->
    anchor_get sp "random" ns g scores k None false (Some cm) = Some (Ok A) -> length A = Nat.min ns k.
  Proof.
    intros GG N SA LS H. apply anchor_get_inv in H as (X & V & s & H1 & H2 & H3 & H4 & H5). apply mapM_length in H5.
    destruct (candidates_good ds cs sp oc cm D W CC G E _ _ _ _ _ (or_introl eq_refl) GG N H1) as (_ & L).
    apply selects_all_true in H2; [|intro; exact I]. subst V. specialize (LS _ _ H4). rewrite H5, firstn_length.
    destruct (SA s) as (P & _). apply Permutation_length in P. rewrite seq_length in P. rewrite P, LS, L; auto. lia.
  Qed.
  Lemma random_size a size ns ns' g g' loc B : aq_space a = sp -> aq_cm a = cm -> good_gen g' -> argsorts (g_argsort g') -> 1 <= size ->
    size <= ns' -> random_batch a size ns ns' g g' loc None = Some (Ok B) -> length B = size.
  Proof.
    intros Es Ec GG SA S1 N H. apply random_inv in H as (p & fp & A & HP & HA & ->). unfold random_anchors in HA. rewrite Es, Ec in HA.
    apply nodedup_anchors_len in HA; auto using random_scores_len; [|lia]. destruct size; [lia|]. simpl. rewrite firstn_length, HA. lia.
  Qed.
  Lemma thompson_size a ts size ns' g' loc B : aq_space a = sp -> good_gen g' -> argsorts (g_argsort g') -> 1 <= size ->
    size <= ns' -> (forall V s, ts V = Ok s -> length s = length V) ->
    thompson_batch a ts size ns' g' loc None (Some cm) = Some (Ok B) -> length B = size.
  Proof.
    intros Es GG SA S1 N LS H. unfold thompson_batch in H. apply rbind_ok in H as (A & HA & H). rewrite Es in HA.
    apply nodedup_anchors_len in HA; auto; [|lia]. injection H as H. apply bind_ok in H as (b & Hb & H).
    assert (b = B) as -> by (destruct b; [discriminate|congruence]). apply mapMi_ok in Hb. apply Forall2i_len in Hb.
    rewrite <- Hb, firstn_length, HA. lia.
  Qed.
End Eval2.
Lemma thompson_scores_len predict nrm V s : thompson_scores predict nrm V = Ok s -> length s = length V.
Proof.
  unfold thompson_scores. generalize 0. revert s. induction V as [|x V IH]; simpl; intros s n H; [injection H as <-; auto|].
  apply bind_ok in H as (p & _ & H). destruct (qclt _ _); [discriminate|]. apply bind_ok in H as (r & Hr & H). injection H as <-. simpl. f_equal. eapply IH; eauto.
Qed.

(** C29 *)
Fixpoint prefixes_from (pre l : mat) : list (option mat) :=
  match l with [] => [] | x :: t => Some pre :: prefixes_from (pre ++ [x]) t end.
Lemma lp_loop_spec aopt n : forall k batch calls st calls' B,
  lp_loop aopt n k batch calls = (st, calls', Some (Ok B)) ->
  exists l, B = batch ++ l /\ length l = n /\ st = None /\ calls' = calls ++ prefixes_from batch l /\
    forall j x, nth_error l j = Some x -> aopt (k + j) (Some (batch ++ firstn j l)) = Some (Ok x).
Proof.
  induction n as [|n IH]; intros k batch calls st calls' B H; simpl in H.
  - injection H as <- <- <-. exists []. rewrite !app_nil_r. repeat split; auto. intros [|j] x; discriminate.
  - destruct (aopt k (Some batch)) as [[x|e]|] eqn:Ex; try discriminate. apply IH in H as (l & -> & L & -> & -> & C).
    exists (x :: l). rewrite <- app_assoc. simpl. split; auto. split; [congruence|]. split; auto. rewrite <- app_assoc. split; auto.
    intros [|j] y; simpl.
    + intros [= <-]. rewrite Nat.add_0_r, app_nil_r. auto.
    + intro Hy. specialize (C j y Hy). rewrite <- app_assoc in C. simpl in C. replace (k + S j) with (S k + j) by lia. exact C.
Qed.
Lemma lp_loop_fail aopt n : forall k batch calls st calls' e, lp_loop aopt n k batch calls = (st, calls', Some (Raise e)) ->
  exists P, st = Some P.
Proof.
  induction n as [|n IH]; intros k batch calls st calls' e H; simpl in H; [discriminate|].
  destruct (aopt k (Some batch)) as [[x|e']|] eqn:Ex; [eapply IH; eauto| |discriminate]. injection H as <- _ _. eauto.
Qed.

Lemma lp_batch_spec size aopt st st' calls B : lp_batch size aopt st = (st', calls, Some (Ok B)) ->
  length B = Nat.max 1 size /\ st' = None /\
  calls = map (fun j => match j with O => None | _ => Some (firstn j B) end) (seq 0 (length B)) /\
  forall j x, nth_error B j = Some x -> aopt j (match j with O => None | _ => Some (firstn j B) end) = Some (Ok x).
Proof.
  intro H. unfold lp_batch in H. destruct (aopt 0 None) as [[x|e]|] eqn:E0; try discriminate.
  apply lp_loop_spec in H as (l & -> & L & -> & -> & C). simpl app. split; [change (S (length l) = Nat.max 1 size); lia|]. split; auto. split.
  - change (length (x :: l)) with (S (length l)). cbn [seq map]. simpl. f_equal.
    assert (Q : forall pre, pre <> [] -> prefixes_from pre l = map (fun j => match j with O => None | _ => Some (firstn j (pre ++ l)) end) (seq (length pre) (length l))).
    { clear. induction l as [|y l IH]; intros pre NE; simpl; auto. f_equal.
      - destruct pre; [congruence|]. rewrite firstn_app, Nat.sub_diag, firstn_all. simpl. rewrite app_nil_r. auto.
      - rewrite IH by (destruct pre; discriminate). rewrite app_length. simpl. rewrite Nat.add_1_r. rewrite <- app_assoc. reflexivity. }
    apply (Q [x]). discriminate.
  - intros [|j] y; simpl.
    + intros [= <-]. exact E0.
    + intro Hy. apply (C j y Hy).
Qed.
Lemma lp_good ds cs sp oc cm size pen ns g loc odm ocm st st' calls B :
  design_space ds cs = Ok sp -> Forall wf_kind (kinds sp) -> Forall canonical_cats (kinds sp) -> good_context sp oc ->
  context_manager sp oc = Ok cm -> (forall P, aq_space (pen P) = sp /\ aq_cm (pen P) = cm) -> (forall k, good_gen (g k)) -> 1 <= ns ->
  lp_compute_batch size pen ns g loc odm ocm st = (st', calls, Some (Ok B)) -> Forall (good_row sp oc) B.
Proof.
  intros D W CC G E EP GG N H. unfold lp_compute_batch in H. apply lp_batch_spec in H as (_ & _ & _ & C). apply Forall_forall. intros x Hx.
  apply In_nth_error in Hx as (j & Hj). apply C in Hj. apply rbind_ok in Hj as ((y & fy) & Hy & Q). injection Q as <-.
  destruct (EP (match j with O => None | _ => Some (firstn j B) end)) as (E1 & E2). eapply acq_good; eauto.
Qed.

(** C22 *)
Lemma np_any_spec M : np_any (Some M) = true <-> has_nonzero M.
Proof.
  simpl. rewrite existsb_exists. unfold has_nonzero. split.
  - intros (r & Hr & H). apply existsb_exists in H as (x & Hx & H). exists r, x. split; auto. split; auto. apply qceq_false. apply negb_true_iff. exact H.
  - intros (r & x & Hr & Hx & N). exists r. split; auto. apply existsb_exists. exists x. split; auto. apply negb_true_iff. apply qceq_false. exact N.
Qed.
Lemma kept_rows (M : option mat) t :
  In t (if np_any M then match M with Some P => P | None => [] end else []) <-> exists P, M = Some P /\ In t P /\ has_nonzero P.
Proof.
  destruct M as [P|].
  - destruct (np_any (Some P)) eqn:N.
    + apply np_any_spec in N. split; [eauto|]. intros (P' & [= <-] & H & _). auto.
    + split; [intros []|]. intros (P' & [= <-] & _ & H). apply np_any_spec in H. congruence.
  - simpl. split; [intros []|]. intros (P & H & _). discriminate.
Qed.
Lemma dm_points_spec sp X pending ignored t : In t (dm_points (duplicate_manager sp X pending ignored)) <->
  In t X \/ (exists P, pending = Some P /\ In t P /\ has_nonzero P) \/ (exists P, ignored = Some P /\ In t P /\ has_nonzero P).
Proof. unfold duplicate_manager. cbn [dm_points]. rewrite !in_app_iff, !kept_rows. tauto. Qed.
Lemma dm_points_known sp X pending ignored t :
  (forall P, pending = Some P -> has_nonzero P) -> (forall P, ignored = Some P -> has_nonzero P) ->
  (In t (dm_points (duplicate_manager sp X pending ignored)) <-> known_to X pending ignored t).
Proof.
  intros H1 H2. rewrite dm_points_spec. unfold known_to. split.
  - intros [H|[(P & E & H & _)|(P & E & H & _)]]; eauto.
  - intros [H|[(P & E & H)|(P & E & H)]]; eauto 8.
Qed.
Lemma duplicate_manager_main sp X pending ignored x t :
  (forall P, pending = Some P -> has_nonzero P) -> (forall P, ignored = Some P -> has_nonzero P) ->
  let dm := duplicate_manager sp X pending ignored in
  (is_zipped_x_duplicate dm t = true <-> known_to X pending ignored t) /\
  (user_form sp x t -> exists b, is_unzipped_x_duplicate dm x = Ok b /\ (b = true <-> known_to X pending ignored t)).
Proof.
  intros H1 H2 dm. assert (Q : is_zipped_x_duplicate dm t = true <-> known_to X pending ignored t).
  { unfold is_zipped_x_duplicate. rewrite vmem_spec. apply dm_points_known; auto. }
  split; auto. intro U. apply zip_tuple_ok in U. unfold is_unzipped_x_duplicate. change (dm_space dm) with sp. rewrite U. cbn [bind]. eauto.
Qed.
Lemma duplicate_manager_general sp X pending ignored t :
  let dm := duplicate_manager sp X pending ignored in
  (In t X -> is_zipped_x_duplicate dm t = true) /\
  (is_zipped_x_duplicate dm t = true -> known_to X pending ignored t) /\
  ((exists x, In x t /\ x <> 0%Qc) -> known_to X pending ignored t -> is_zipped_x_duplicate dm t = true).
Proof.
  intro dm. unfold is_zipped_x_duplicate. rewrite vmem_spec. unfold dm. rewrite dm_points_spec. unfold known_to. split; [auto|]. split.
  - intros [H|[(P & E & H & _)|(P & E & H & _)]]; eauto.
  - intros (x & Hx & Nx). assert (Z : forall P, In t P -> has_nonzero P) by (intros P HP; exists t, x; auto).
    intros [H|[(P & E & H)|(P & E & H)]]; eauto 8.
Qed.

(** C24 *)
Lemma sequential_new a ns g loc X pending ignored B :
  (forall P, pending = Some P -> has_nonzero P) -> (forall P, ignored = Some P -> has_nonzero P) ->
  sequential_batch a ns g loc (Some (duplicate_manager (aq_space a) X pending ignored)) = Some (Ok B) ->
  exists x t, B = [x] /\ user_form (aq_space a) x t /\ ~ known_to X pending ignored t.
Proof.
  intros H1 H2 H. unfold sequential_batch in H. apply rbind_ok in H as ((x & fx) & Hx & H). injection H as <-.
  apply acq_unknown in Hx as (t & U & N). exists x, t. split; auto. split; [exact U|].
  rewrite dm_points_known in N; auto.
Qed.

(** C27 *)
Lemma random_first a size ns ns' g g' loc odm B : random_batch a size ns ns' g g' loc odm = Some (Ok B) ->
  exists p fp, acq_optimize a ns g loc odm = Some (Ok (p, fp)) /\ (odm = None \/ has_nonzero [p] -> hd_error B = Some p).
Proof.
  intro H. apply random_inv in H as (p & fp & A & HP & HA & HB). exists p, fp. split; auto. destruct odm as [dm|].
  - intros [?|NZ]; [discriminate|]. eapply dedup_first; eauto.
  - intros _. subst B. reflexivity.
Qed.

(** C28 *)
Lemma sizes_main ds cs sp oc cm a size ns ns' g g' loc ts :
  design_space ds cs = Ok sp -> Forall wf_kind (kinds sp) -> Forall canonical_cats (kinds sp) ->
  good_context sp oc -> context_manager sp oc = Ok cm -> aq_space a = sp -> aq_cm a = cm ->
  good_gen g' -> argsorts (g_argsort g') -> 1 <= size -> size <= ns' ->
  (forall V s, ts V = Ok s -> length s = length V) ->
  (forall B, sequential_batch a ns g loc None = Some (Ok B) -> length B = 1) /\
  (forall B, random_batch a size ns ns' g g' loc None = Some (Ok B) -> length B = size) /\
  (forall B, thompson_batch a ts size ns' g' loc None (Some cm) = Some (Ok B) -> length B = size).
Proof.
  intros D W CC G E Es Ec GG SA S1 S2 LS. split; [|split]; intros B H.
  - unfold sequential_batch in H. apply rbind_ok in H as ((x & fx) & _ & H). injection H as <-. reflexivity.
  - eapply random_size; eauto.
  - eapply thompson_size; eauto.
Qed.
