(** Representer points: C71, C107. *)
From Coq Require Import String List Reals Qreals QArith Qcanon Bool Arith Lia Lra Permutation.
From Coquelicot Require Import Rbar.
From Verif.Model Require Import Py Space Design Optim ES Sampler.
From Verif.Spec Require Import SpaceSpec DesignSpec SamplerSpec Examples.
From Verif.Proof Require Import Num Dec SpaceP RoundP SpaceMain DesignMain AnchorP SuggestP ESP2.
Import ListNotations.
Local Open Scope nat_scope.

(** ---- keeping the points of positive density *)
Section Keep.
Context {A : Type}.
Variable gone : nat -> bool.
Fixpoint drop_from (i : nat) (pts : list A) : list A :=
  match pts with [] => [] | p :: t => if gone i then drop_from (S i) t else p :: drop_from (S i) t end.
Lemma mapM_kept pre : forall pts, mapM (get (pre ++ pts)) (filter (fun i => negb (gone i)) (seq (length pre) (length pts))) = Ok (drop_from (length pre) pts).
Proof.
  intros pts. revert pre. induction pts as [|p t IH]; intros pre; [reflexivity|]. cbn [length seq filter drop_from].
  specialize (IH (pre ++ [p])). rewrite <- app_assoc, app_length in IH. cbn [app length] in IH. rewrite Nat.add_1_r in IH.
  destruct (gone (length pre)); cbn [negb]; [exact IH|]. cbn [mapM]. rewrite (get_some _ _ p) by (rewrite nth_error_app2 by lia; now rewrite Nat.sub_diag).
  cbn [bind]. rewrite IH. reflexivity.
Qed.
End Keep.
Lemma mapM_permutation {A B} (f : A -> res B) l l' bs : Permutation l l' -> mapM f l = Ok bs -> exists bs', mapM f l' = Ok bs' /\ Permutation bs bs'.
Proof.
  intros P. revert bs. induction P; intros bs H.
  - exists bs. split; auto.
  - cbn [mapM] in *. apply bind_ok in H as (b & Hb & H). apply bind_ok in H as (t & Ht & H). injection H as <-.
    destruct (IHP t Ht) as (t' & E & Q). exists (b :: t'). rewrite Hb. cbn [bind]. rewrite E. cbn [bind]. split; [reflexivity|now constructor].
  - cbn [mapM] in *. apply bind_ok in H as (b & Hb & H). apply bind_ok in H as (t & Ht & H). apply bind_ok in Ht as (c & Hc & Ht).
    apply bind_ok in Ht as (u & Hu & Ht). injection Ht as <-. injection H as <-. exists (c :: b :: u). rewrite Hc. cbn [bind]. rewrite Hb. cbn [bind].
    rewrite Hu. cbn [bind]. split; [reflexivity|apply perm_swap].
  - destruct (IHP1 _ H) as (b1 & H1 & Q1). destruct (IHP2 _ H1) as (b2 & H2 & Q2). exists b2. split; [exact H2|]. eapply perm_trans; eauto.
Qed.
Lemma drop_selects {A} (pts pre : list (A * Rbar)) (gone : nat -> bool) :
  (forall i p, nth_error (pre ++ pts) i = Some p -> gone i = minus_inf (snd p)) ->
  selects (fun p => snd p <> m_infty) pts (drop_from gone (length pre) pts).
Proof.
  revert pre. induction pts as [|p t IH]; intros pre H; cbn [drop_from]; [constructor|].
  assert (G : gone (length pre) = minus_inf (snd p)). { apply H. rewrite nth_error_app2 by lia. now rewrite Nat.sub_diag. }
  assert (R : selects (fun p => snd p <> m_infty) t (drop_from gone (S (length pre)) t)).
  { specialize (IH (pre ++ [p])). rewrite app_length in IH. cbn [length] in IH. rewrite Nat.add_1_r in IH. apply IH.
    intros i p' E. apply H. rewrite <- app_assoc in E. exact E. }
  rewrite G. destruct (snd p) eqn:E; cbn [minus_inf].
  - apply selects_take; [rewrite E; discriminate|exact R].
  - apply selects_take; [rewrite E; discriminate|exact R].
  - apply selects_skip; [rewrite E; intro X; now apply X|exact R].
Qed.
Lemma selects_all {A} (P : A -> Prop) l : Forall P l -> selects P l l.
Proof. induction 1; [constructor|now apply selects_take]. Qed.
Lemma kept_points {A} ord n (pts : list (A * Rbar)) : (forall l, Permutation (ord l) l) -> length pts = n ->
  exists sel kept, keep_points ord n pts = Ok kept /\ selects (fun p => snd p <> m_infty) pts sel /\ Permutation kept sel.
Proof.
  intros O L. unfold keep_points. set (g := fun i => match nth_error pts i with Some p => minus_inf (snd p) | None => false end).
  destruct (filter g (seq 0 (length pts))) as [|a gone] eqn:F.
  - exists pts, pts. split; [reflexivity|]. split; [|apply Permutation_refl]. apply selects_all, Forall_forall. intros p I E.
    apply In_nth_error in I as (i & Hi). assert (X : In i (filter g (seq 0 (length pts)))).
    { apply filter_In. split; [apply in_seq; apply nth_error_Some_lt in Hi || (assert (i < length pts) by (apply nth_error_Some; congruence)); lia|]. unfold g. rewrite Hi, E. reflexivity. }
    rewrite F in X. destruct X.
  - rewrite <- F. subst n. set (h := fun i => existsb (Nat.eqb i) (filter g (seq 0 (length pts)))).
    assert (HG : forall i p, nth_error pts i = Some p -> h i = minus_inf (snd p)).
    { intros i p E. assert (Li : i < length pts) by (apply nth_error_Some; congruence). unfold h.
      destruct (existsb (Nat.eqb i) (filter g (seq 0 (length pts)))) eqn:X.
      - apply existsb_exists in X as (j & I & J). apply Nat.eqb_eq in J. subst j. apply filter_In in I as (_ & I). unfold g in I. rewrite E in I. now rewrite I.
      - destruct (minus_inf (snd p)) eqn:M; [|reflexivity]. rewrite <- X. apply existsb_exists. exists i. split; [|apply Nat.eqb_refl].
        apply filter_In. split; [apply in_seq; lia|]. unfold g. now rewrite E. }
    pose proof (mapM_kept h [] pts) as K. cbn [app length] in K.
    destruct (mapM_permutation (get pts) _ (ord (filter (fun i => negb (h i)) (seq 0 (length pts)))) _ (Permutation_sym (O _)) K) as (kept & E & P).
    exists (drop_from h 0 pts), kept. split; [exact E|]. split; [|now apply Permutation_sym].
    exact (drop_selects pts [] h HG).
Qed.

(** ---- the walkers *)
Lemma chain_length logp s k s' : chain logp s k s' -> length s' = length s.
Proof. induction 1 as [|k s' s'' C IH M]; [reflexivity|]. rewrite <- IH. symmetry. eapply Forall2_len; exact M. Qed.
Lemma chain_invariant logp (P : list R * Rbar -> Prop) s k s' : chain logp s k s' -> Forall P s ->
  (forall p x l, P p -> l = logp x -> l <> m_infty -> length x = length (fst p) -> P (x, l)) -> Forall P s'.
Proof.
  intros C F H. induction C as [|k s' s'' C IH M]; [exact F|]. clear C F. revert IH. unfold moves in M. induction M as [|p q u v [E | (E1 & E2 & E3)] M IHM]; intros F.
  - constructor.
  - inversion F; subst. constructor; auto.
  - inversion F; subst. constructor; auto. destruct q as (x & l). cbn [fst snd] in *. eapply H; eauto.
Qed.

Lemma q2r_le (a b : Qc) : (a <= b)%Qc -> (q2r a <= q2r b)%R.
Proof. intro H. apply Qle_Rle. exact H. Qed.
Lemma prop_inv bounds ei x l : length x = length bounds -> prop_func bounds ei x = l -> l <> m_infty -> in_box_R bounds x /\ (0 < ei)%R /\ l = Finite (ln ei).
Proof.
  intros L E N. destruct (Rlt_dec 0 ei) as [P|P].
  - destruct (proposal bounds ei x L P) as (H1 & H2).
    destruct (Forall_dec (fun p => (fst (fst p) <= snd p <= snd (fst p))%R) (fun p => match Rle_dec (fst (fst p)) (snd p), Rle_dec (snd p) (snd (fst p)) with
      | left a, left b => left (conj a b) | right a, _ => right (fun c => a (proj1 c)) | _, right b => right (fun c => b (proj2 c)) end) (combine bounds x)) as [F|F].
    + split; [|split; [exact P|rewrite <- E; now apply H1]]. clear -F L. revert x L F. induction bounds as [|b bs IH]; intros [|v x] L F; try discriminate; [constructor|].
      cbn [combine] in F. inversion F; subst. constructor; [exact H1|]. apply IH; [now injection L|assumption].
    + rewrite H2 in E by exact F. now subst.
  - exfalso. unfold prop_func in E. destruct (forallb _ _); [|now subst]. destruct (Rlt_dec ei 0); [destruct (Req_EM_T 0 0); [now subst|lra]|].
    destruct (Req_EM_T ei 0); [now subst|lra].
Qed.
Lemma prop_inside bounds ei x : in_box_R bounds x -> (0 < ei)%R -> prop_func bounds ei x <> m_infty.
Proof.
  intros B P. destruct (proposal bounds ei x) as (H & _); [symmetry; eapply Forall2_len; exact B|exact P|]. rewrite H; [discriminate|].
  clear -B. induction B as [|b v bs x H B IH]; [constructor|]. cbn [combine]. constructor; [exact H|exact IH].
Qed.
Lemma numeric_rows ks row : Forall numeric ks -> design_row ks row -> design_point ks row.
Proof.
  intros N H. induction H as [|k ks b r U H IH]; [constructor|]. inversion N; subst. constructor; [|now apply IH].
  destruct k; try contradiction; destruct U as (x & -> & V); exists x; auto.
Qed.
Lemma box_rows bs z : Forall2 (fun x b => (fst b <= x)%Qc /\ (x <= snd b)%Qc) z bs -> in_box_R (box_of bs) (map q2r z).
Proof.
  induction 1 as [|x b z bs (H1 & H2) H IH]; [constructor|]. constructor; [|exact IH]. cbn [fst snd]. split; apply q2r_le; assumption.
Qed.

Section Representers.
Variables (ds : list descr) (cs : option (list constr)) (sp : space) (ens : ensemble) (ord : list nat -> list nat) (fuel : nat)
  (dr : nat -> draws) (U : mat) (n burn_in : nat) (ei : list R -> R) (kept : list (list R * Rbar)).
Hypothesis D : design_space ds cs = Ok sp.
Hypothesis W : Forall wf_kind (kinds sp).
Hypothesis N : Forall numeric (kinds sp).
Hypothesis G : forall k, unit_draws (dr_unif (dr k)).
Hypothesis AR : accept_reject ens.
Hypothesis O : forall l, Permutation (ord l) l.
Hypothesis H : representer_points ens ord fuel sp dr U n burn_in ei = Some (Ok kept).
Lemma numeric_bandit_free : bandit_free (kinds sp).
Proof. eapply Forall_impl; [|exact N]. intros [| | |]; cbn; intros X; try contradiction; reflexivity. Qed.
Lemma representers_inv : exists bs M pts sel k, get_bounds sp = Ok bs /\ length M = n /\
  Forall (fun z => in_box_R (box_of bs) (map q2r z)) M /\
  chain (fun x => prop_func (box_of bs) (ei x) x) (map (fun z => (map q2r z, prop_func (box_of bs) (ei (map q2r z)) (map q2r z))) M) k pts /\
  length pts = n /\ selects (fun p => snd p <> m_infty) pts sel /\ Permutation kept sel.
Proof.
  pose proof H as H0. unfold representer_points in H0. apply rbind_ok in H0 as (bs & Hb & H0). injection Hb as Hb.
  apply rbind_ok in H0 as (pts & Hp & H0). injection H0 as H0. destruct (existsb _ _); [discriminate|].
  unfold get_samples in Hp. apply rbind_ok in Hp as (M & HM & Hp). injection Hp as Hp. apply bind_ok in Hp as (dim & Hd & Hp).
  destruct (random_design_rows _ _ _ _ _ _ _ D W (or_introl numeric_bandit_free) G HM) as (LM & RM).
  destruct (AR _ _ _ _ _ _ Hp) as (k & C). rewrite map_map in C.
  destruct (layout_main ds cs sp D W numeric_bandit_free) as (_ & (bs' & Hb' & _ & B) & _).
  assert (bs' = bs) by congruence. subst bs'.
  pose proof (chain_length _ _ _ _ C) as LC. rewrite map_length in LC.
  destruct (kept_points ord n pts O (eq_trans LC LM)) as (sel & kept' & K & S & P).
  rewrite K in H0. injection H0 as ->. exists bs, M, pts, sel, k.
  split; [exact Hb|]. split; [exact LM|]. split; [|split; [exact C|split; [exact (eq_trans LC LM)|split; assumption]]].
  eapply Forall_impl; [|exact RM]. intros z Hz. apply box_rows, B, numeric_rows; assumption.
Qed.
Lemma selects_inv {A} (P : A -> Prop) l sel : selects P l sel -> length sel <= length l /\ forall a, In a sel -> In a l /\ P a.
Proof.
  induction 1 as [|a l l' Pa S (L & I)|a l l' Pa S (L & I)]; cbn [length].
  - split; [lia|]. intros a [].
  - split; [lia|]. intros b [<-|B]; [split; [now left|exact Pa]|]. destruct (I b B). split; [now right|assumption].
  - split; [lia|]. intros b B. destruct (I b B). split; [now right|assumption].
Qed.
Lemma selects_full {A} (P : A -> Prop) l sel : selects P l sel -> Forall P l -> sel = l.
Proof. induction 1; intro F; inversion F; subst; [reflexivity|f_equal; auto|contradiction]. Qed.

Lemma representers_inside : exists bs, get_bounds sp = Ok bs /\ length kept <= n /\
  forall x l, In (x, l) kept -> in_box_R (box_of bs) x /\ (0 < ei x)%R /\ l = Finite (ln (ei x)).
Proof.
  destruct representers_inv as (bs & M & pts & sel & k & Hb & LM & RM & C & LP & S & P). exists bs. split; [exact Hb|].
  destruct (selects_inv _ _ _ S) as (L & I). split; [rewrite (Permutation_length P); lia|].
  intros x l X. apply (Permutation_in _ P) in X. apply I in X as (X & Y). cbn [snd] in Y.
  assert (F : Forall (fun p => snd p = prop_func (box_of bs) (ei (fst p)) (fst p) /\ length (fst p) = length (box_of bs)) pts).
  { apply (chain_invariant _ _ _ _ _ C).
    - apply Forall_map. eapply Forall_impl; [|exact RM]. intros z Hz. cbn [fst snd]. split; [reflexivity|]. symmetry. eapply Forall2_len; exact Hz.
    - intros p x0 l0 (_ & Lp) -> _ Lx. cbn [fst snd]. split; [reflexivity|congruence]. }
  rewrite Forall_forall in F. destruct (F _ X) as (E & Lx). cbn [fst snd] in *. eapply prop_inv; eauto.
Qed.
Lemma representers_all : (forall bs x, get_bounds sp = Ok bs -> in_box_R (box_of bs) x -> (0 < ei x)%R) -> length kept = n.
Proof.
  intros E. destruct representers_inv as (bs & M & pts & sel & k & Hb & LM & RM & C & LP & S & P).
  rewrite (Permutation_length P). rewrite (selects_full _ _ _ S); [exact LP|].
  apply (chain_invariant _ _ _ _ _ C).
  - apply Forall_map. eapply Forall_impl; [|exact RM]. intros z Hz. cbn [snd]. apply prop_inside; eauto.
  - intros p x l _ _ NL _. exact NL.
Qed.
End Representers.

(** ---- Metropolis samplers *)
Lemma combine_seq_map {A B} (f : nat * A -> B) (R : A -> B -> Prop) s : forall j, (forall i a, R a (f (i, a))) -> Forall2 R s (map f (combine (seq j (length s)) s)).
Proof. induction s as [|a s IH]; intros j H; cbn; constructor; auto. Qed.
Lemma metropolis_moves prop accept logp k s : (forall x k i, length (prop x k i) = length x) -> moves logp s (metropolis_step prop accept logp k s).
Proof.
  intros L. unfold moves, metropolis_step. apply combine_seq_map. intros i (x & l). destruct (logp (prop x k i)) eqn:E; [| |now left].
  - destruct (accept k i); [right|now left]. cbn [fst snd]. rewrite E. split; [reflexivity|]. split; [discriminate|apply L].
  - destruct (accept k i); [right|now left]. cbn [fst snd]. rewrite E. split; [reflexivity|]. split; [discriminate|apply L].
Qed.
Lemma chain_trans logp s k s' : chain logp s k s' -> forall j s'', chain logp s' j s'' -> exists m, chain logp s m s''.
Proof.
  intros C j s'' C'. induction C' as [|j s1 s2 C' (m & IH) M]; [eauto|]. exists (S m). econstructor; eauto.
Qed.
Lemma metropolis_chain prop accept logp : (forall x k i, length (prop x k i) = length x) -> forall steps k s,
  exists m, chain logp s m (metropolis_from prop accept logp steps k s).
Proof.
  intros L. induction steps as [|steps IH]; intros k s; [exists 0; constructor|]. cbn [metropolis_from].
  destruct (IH (S k) (metropolis_step prop accept logp k s)) as (m & C). eapply chain_trans; [|exact C].
  econstructor; [constructor|apply metropolis_moves, L].
Qed.
Lemma metropolis_accept_reject prop accept : (forall x k i, length (prop x k i) = length x) -> accept_reject (metropolis prop accept).
Proof. intros L w d logp start steps pts [= <-]. apply metropolis_chain, L. Qed.

(** ---- a sampler may return any point of the box where the density is positive *)
Definition toward (x : list R) (y : list R) (_ _ : nat) : list R := if Nat.eqb (length y) (length x) then x else y.
Lemma toward_length x y k i : length (toward x y k i) = length y.
Proof. unfold toward. destruct (Nat.eqb_spec (length y) (length x)); congruence. Qed.
Lemma step_toward x l logp k s : logp x = Finite l -> Forall (fun p => length (fst p) = length x) s ->
  metropolis_step (toward x) (fun _ _ => true) logp k s = map (fun _ => (x, Finite l)) s.
Proof.
  intros E F. unfold metropolis_step. cbv zeta. generalize 0 as j. induction F as [|(y & m) s L F IH]; intros j; [reflexivity|]. cbn [length seq combine map fst] in *.
  unfold toward at 1 2. rewrite (proj2 (Nat.eqb_eq _ _) L), E. f_equal. apply (IH (S j)).
Qed.
Lemma from_toward x l logp : logp x = Finite l -> forall steps k s, Forall (fun p => length (fst p) = length x) s ->
  metropolis_from (toward x) (fun _ _ => true) logp (S steps) k s = map (fun _ => (x, Finite l)) s.
Proof.
  intros E. induction steps as [|m IH]; intros k s F.
  - cbn [metropolis_from]. apply (step_toward x l logp k s E F).
  - change (metropolis_from (toward x) (fun _ _ => true) logp (S m) (S k) (metropolis_step (toward x) (fun _ _ => true) logp k s) = map (fun _ => (x, Finite l)) s).
    rewrite (step_toward x l logp k s E F), IH, map_map; [reflexivity|]. apply Forall_map, Forall_forall. reflexivity.
Qed.
Lemma representers_toward ord fuel sp dr U n b ei x M bs d : initial_design fuel "random" sp dr U n = Some (Ok M) -> get_bounds sp = Ok bs -> input_dim sp = Ok d ->
  Forall (fun z => length z = length x) M -> in_box_R (box_of bs) x -> (0 < ei x)%R ->
  representer_points (metropolis (toward x) (fun _ _ => true)) ord fuel sp dr U n (S b) ei = Some (Ok (map (fun _ => (x, Finite (ln (ei x)))) M)).
Proof.
  intros HM HB HD LM IB P. unfold representer_points. rewrite HB. cbn [rbind]. fold (box_of bs). unfold get_samples. rewrite HM. cbn [rbind]. rewrite HD. cbn [bind].
  unfold metropolis. cbn [rbind].
  assert (E : prop_func (box_of bs) (ei x) x = Finite (ln (ei x))).
  { destruct (proposal (box_of bs) (ei x) x) as (H & _); [symmetry; eapply Forall2_len; exact IB|exact P|]. apply H. clear -IB.
    induction IB as [|c v cs x H B IH]; [constructor|]. cbn [combine]. constructor; [exact H|exact IH]. }
  rewrite (from_toward x (ln (ei x)) (fun y => prop_func (box_of bs) (ei y) y) E)
    by (rewrite map_map; apply Forall_map; eapply Forall_impl; [|exact LM]; intros z Hz; cbn [fst]; now rewrite map_length).
  rewrite !map_map. unfold keep_points.
  change vec with (list Qc). set (pts := map (fun _ : list Qc => (x, Finite (ln (ei x)))) M).
  assert (F : Forall (fun p => p = (x, Finite (ln (ei x)))) pts) by (apply Forall_map, Forall_forall; reflexivity).
  assert (X : existsb (fun p : list R * Rbar => plus_inf (snd p)) pts = false).
  { clearbody pts. induction F as [|p l -> F IH]; [reflexivity|]. cbn. exact IH. }
  rewrite X. destruct (filter _ _) as [|i t] eqn:Y; [reflexivity|]. exfalso.
  assert (I : In i (filter (fun i => match nth_error pts i with Some p => minus_inf (snd p) | None => false end) (seq 0 (length pts)))) by (rewrite Y; now left).
  apply filter_In in I as (_ & I). destruct (nth_error pts i) as [p|] eqn:Z; [|discriminate]. apply nth_error_In in Z. rewrite Forall_forall in F. rewrite (F _ Z) in I. discriminate.
Qed.
Lemma infinite_density ens ord fuel sp dr U n b ei bs pts p : get_bounds sp = Ok bs ->
  get_samples ens fuel sp dr U n (fun x => prop_func (box_of bs) (ei x) x) b = Some (Ok pts) -> In p pts -> snd p = p_infty ->
  representer_points ens ord fuel sp dr U n b ei = Some (Raise RuntimeError).
Proof.
  intros HB HG I E. unfold representer_points. rewrite HB. cbn [rbind]. fold (box_of bs). rewrite HG. cbn [rbind].
  replace (existsb _ pts) with true; [reflexivity|]. symmetry. apply existsb_exists. exists p. split; [exact I|]. now rewrite E.
Qed.

Definition half_dr (_ : nat) : draws := mk_draws (fun _ _ => 0) (fun _ _ => q 1 4) (fun _ _ => z 0).
Lemma half_unit k : unit_draws (dr_unif (half_dr k)).
Proof. intros a i. split; qcle_dec. Qed.
Definition below_half := mk_constr None (Some (fun x => Ok (nth 0 x 0 - q 1 2)%Qc)).
Lemma box1 (lo hi v : Qc) : (lo <= v)%Qc -> (v <= hi)%Qc -> in_box_R (box_of [(lo, hi)]) (map q2r [v]).
Proof. intros H1 H2. constructor; [|constructor]. cbn [fst snd]. split; apply q2r_le; assumption. Qed.
Lemma constraint_ignored : exists ds c sp prop accept dr n burn_in ei x l, design_space ds (Some [c]) = Ok sp /\ Forall wf_kind (kinds sp) /\
  Forall numeric (kinds sp) /\ (forall k, unit_draws (dr_unif (dr k))) /\ (forall x k i, length (prop x k i) = length x) /\
  (forall y, (0 < ei y)%R) /\
  representer_points (metropolis prop accept) (fun l => l) 9 sp dr [] n burn_in ei = Some (Ok [(map q2r x, l)]) /\ ~ satisfies c x.
Proof.
  exists [d_cont "x" (z 0) (z 1)], below_half, (the_space [d_cont "x" (z 0) (z 1)] (Some [below_half])), (toward (map q2r [q 3 4])), (fun _ _ => true),
    half_dr, 1, 1, (fun _ => 1%R), [q 3 4], (Finite (ln 1)).
  split; [vm_compute; reflexivity|]. split; [repeat constructor; qcle_dec|]. split; [repeat constructor|]. split; [exact half_unit|].
  split; [apply toward_length|]. split; [intro; lra|]. split.
  - assert (HM : initial_design 9 "random" (the_space [d_cont "x" (z 0) (z 1)] (Some [below_half])) half_dr [] 1 = Some (Ok [[q 1 4]])) by vmeq.
    apply (representers_toward (fun l => l) 9 _ half_dr [] 1 0 (fun _ => 1%R) (map q2r [q 3 4]) [[q 1 4]] [(z 0, z 1)] 1 HM).
    + vmeq.
    + vm_compute; reflexivity.
    + repeat constructor.
    + apply box1; qcle_dec.
    + lra.
  - intros (v & (f & F & E) & L). cbn in F. injection F as <-. cbn [nth] in E. assert (V : v = (q 3 4 - q 1 2)%Qc) by congruence. subst v. revert L. apply Qclt_not_le. qclt_dec.
Qed.
Lemma grid_ignored : exists ds sp prop accept dr n burn_in ei x l, design_space ds None = Ok sp /\ Forall wf_kind (kinds sp) /\
  Forall numeric (kinds sp) /\ (forall k, unit_draws (dr_unif (dr k))) /\ (forall x k i, length (prop x k i) = length x) /\
  (forall y, (0 < ei y)%R) /\
  representer_points (metropolis prop accept) (fun l => l) 9 sp dr [] n burn_in ei = Some (Ok [(map q2r x, l)]) /\ ~ design_point (kinds sp) x.
Proof.
  exists [d_disc "x" [z 0; z 4]], (the_space [d_disc "x" [z 0; z 4]] None), (toward (map q2r [z 3])), (fun _ _ => true), half_dr, 1, 1, (fun _ => 1%R), [z 3], (Finite (ln 1)).
  split; [vm_compute; reflexivity|]. split; [repeat constructor; discriminate|]. split; [repeat constructor|]. split; [exact half_unit|].
  split; [apply toward_length|]. split; [intro; lra|]. split.
  - assert (HM : initial_design 9 "random" (the_space [d_disc "x" [z 0; z 4]] None) half_dr [] 1 = Some (Ok [[z 0]])) by vmeq.
    apply (representers_toward (fun l => l) 9 _ half_dr [] 1 0 (fun _ => 1%R) (map q2r [z 3]) [[z 0]] [(z 0, z 4)] 1 HM).
    + vmeq.
    + vm_compute; reflexivity.
    + repeat constructor.
    + apply box1; qcle_dec.
    + lra.
  - intros H. change (kinds _) with [KDisc [z 0; z 4]] in H. inversion H as [|k ks b r V H' E1 E2]; subst. cbn in V. destruct V as (x & -> & V). injection E2 as -> _.
    destruct V as [V | [V | []]]; apply (f_equal this) in V; discriminate V.
Qed.
Lemma two_points : let ds := [d_cont "x" (z 0) (z 4)] in let sp := the_space ds None in
  representer_points (metropolis (toward [q2r (z 3)]) (fun _ _ => true)) (@rev nat) 9 sp half_dr [] 2 5 (fun x => 1 + nth 0 x 0 * nth 0 x 0)%R =
    Some (Ok [([q2r (z 3)], Finite (ln (1 + q2r (z 3) * q2r (z 3)))); ([q2r (z 3)], Finite (ln (1 + q2r (z 3) * q2r (z 3))))]).
Proof.
  intros ds sp. assert (HM : initial_design 9 "random" sp half_dr [] 2 = Some (Ok [[z 1]; [z 1]])) by vmeq.
  apply (representers_toward (@rev nat) 9 sp half_dr [] 2 4 (fun x => 1 + nth 0 x 0 * nth 0 x 0)%R (map q2r [z 3]) [[z 1]; [z 1]] [(z 0, z 4)] 1 HM).
  - vmeq.
  - vm_compute; reflexivity.
  - repeat constructor.
  - apply box1; qcle_dec.
  - cbn [map nth]. nra.
Qed.

(** ---- the calls of the sampler *)
From Verif.Spec Require Import ESearchSpec.
From Verif.Proof Require Import ESearchP.
Lemma same_calls ds cs sp ens ens' ord fuel dr U n burn_in ei : design_space ds cs = Ok sp -> Forall wf_kind (kinds sp) ->
  Forall numeric (kinds sp) -> (forall k, unit_draws (dr_unif (dr k))) ->
  (forall logp start, length start = n -> Forall (fun x => length x = model_dimensionality sp) start ->
     ens n (model_dimensionality sp) logp start burn_in = ens' n (model_dimensionality sp) logp start burn_in) ->
  representer_points ens ord fuel sp dr U n burn_in ei = representer_points ens' ord fuel sp dr U n burn_in ei.
Proof.
  intros D W N G A.
  assert (Q : forall logp, get_samples ens fuel sp dr U n logp burn_in = get_samples ens' fuel sp dr U n logp burn_in).
  { intro logp. unfold get_samples. destruct (initial_design fuel "random" sp dr U n) as [[M|e]|] eqn:I; [|reflexivity|reflexivity].
    assert (B : bandit_free (kinds sp)) by (eapply Forall_impl; [|exact N]; intros [| | |]; cbn; intros X; try contradiction; reflexivity).
    destruct (random_design_rows _ _ _ _ _ _ _ D W (or_introl B) G I) as (L & R).
    assert (N' : Forall numeric_kind (kinds sp)) by (eapply Forall_impl; [|exact N]; intros [| | |]; cbn; intros X; try contradiction; exact Logic.I).
    destruct (es_supported ds cs sp D N') as (E & _). cbn [rbind]. rewrite E. cbn [bind]. f_equal. apply A; [now rewrite map_length|].
    apply Forall_map. eapply Forall_impl; [|exact R]. intros z Hz. rewrite map_length.
    rewrite (design_point_length _ _ W (numeric_rows _ _ N Hz)). symmetry. apply layout_main with (1 := D); assumption. }
  unfold representer_points. destruct (get_bounds sp) as [bs|e]; [|reflexivity]. cbn [rbind]. rewrite Q. reflexivity.
Qed.
