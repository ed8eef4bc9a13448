(** The surrogates other than GPModel. *)
From Coq Require Import Reals Lra.
From Coq Require Import String List Bool Arith ZArith QArith Qcanon Lia.
From Verif.Model Require Import Py Space Objective Models AcqR Surrogates.
From Verif.Spec Require Import SurrogatesSpec.
From Verif.Proof Require Import Num.
Import ListNotations.
Local Open Scope nat_scope.

Lemma last_cons {A} (a d : A) l : last (a :: l) d = last l a.
Proof. revert a d. induction l as [|b l IH]; intros a d; [reflexivity|]. change (last (a :: b :: l) d) with (last (b :: l) d). rewrite IH. now rewrite IH. Qed.
Lemma repeat_app1 {A} (a : A) n : repeat a n ++ [a] = repeat a (S n).
Proof. induction n as [|n IH]; [reflexivity|]. cbn [repeat app]. now rewrite IH. Qed.

Lemma width_ncols n (d : data) : width n (fst d) -> ncols d = n.
Proof. intros [NE H]. unfold ncols. destruct (fst d) as [|r X]; [easy|]. now inversion H. Qed.

Section G.
Context {K N W : Type}.
Lemma warped_later (ds : list data) : forall (g : warped K N W) m, wm_model g = Some m ->
  exists m', wm_model (warped_updates g ds) = Some m' /\ wm_kernel (warped_updates g ds) = wm_kernel g /\ w_kern m' = w_kern m /\ w_fun m' = w_fun m /\ w_terms m' = w_terms m /\
    w_constraint m' = w_constraint m /\ w_data m' = last ds (w_data m) /\ w_opts m' = w_opts m ++ repeat (wm_optimizer g, wm_iters g, wm_verbose g) (List.length ds).
Proof.
  induction ds as [|d ds IH]; intros g m M.
  - exists m. rewrite app_nil_r. cbn. auto 10.
  - unfold warped_updates. cbn [fold_left]. fold (warped_updates (warped_update g d) ds).
    destruct (IH (warped_update g d) (mk_wgp (w_kern m) (w_fun m) (w_terms m) (w_constraint m) d (w_opts m ++ [(wm_optimizer g, wm_iters g, wm_verbose g)]))) as (m' & A & B & C & D & E & F & H & I).
    { unfold warped_update. rewrite M. reflexivity. }
    assert (Q : wm_kernel (warped_update g d) = wm_kernel g /\ wm_optimizer (warped_update g d) = wm_optimizer g /\ wm_iters (warped_update g d) = wm_iters g /\ wm_verbose (warped_update g d) = wm_verbose g).
    { unfold warped_update. rewrite M. cbn. auto. }
    destruct Q as (Q1 & Q2 & Q3 & Q4). rewrite Q1 in B. rewrite Q2, Q3, Q4 in I. cbn [w_kern w_fun w_terms w_constraint w_data w_opts] in C, D, E, F, H, I.
    exists m'. rewrite last_cons. do 7 (split; [assumption|]).
    rewrite I, <- app_assoc. reflexivity.
Qed.
Lemma warped_spec (g : warped K N W) d0 ds : wm_model g = None ->
  exists m, wm_model (warped_updates g (d0 :: ds)) = Some m /\
    w_kern m = (match wm_kernel g with Some k => k | None => Matern32 (ncols d0) end) /\ w_fun m = wm_fun g /\ w_terms m = wm_terms g /\
    w_constraint m = (if wm_exact g then NFixed else NPositive) /\ w_data m = last ds d0 /\
    w_opts m = repeat (wm_optimizer g, wm_iters g, wm_verbose g) (S (List.length ds)) /\ wm_kernel (warped_updates g (d0 :: ds)) = Some (w_kern m).
Proof.
  intros M. unfold warped_updates. cbn [fold_left]. fold (warped_updates (warped_update g d0) ds).
  destruct (warped_later ds (warped_update g d0) (mk_wgp (match wm_kernel g with Some k => k | None => Matern32 (ncols d0) end) (wm_fun g) (wm_terms g)
    (if wm_exact g then NFixed else NPositive) d0 [(wm_optimizer g, wm_iters g, wm_verbose g)])) as (m & A & B & C & D & E & F & H & I).
  { unfold warped_update. rewrite M. unfold warped_create. cbn. destruct (wm_kernel g); reflexivity. }
  exists m. cbn in C, D, E, F, H. do 6 (split; [assumption|]). split.
  - rewrite I. unfold warped_update. rewrite M. reflexivity.
  - rewrite B, C. unfold warped_update. rewrite M. unfold warped_create. cbn. destruct (wm_kernel g); reflexivity.
Qed.
Lemma warped_same (g : warped K N W) n r ds : wm_model g = None -> wm_model (warped_updates (warped_options n r g) ds) = wm_model (warped_updates g ds).
Proof.
  intros M. assert (H : forall ds (g : warped K N W), warped_updates (warped_options n r g) ds = warped_options n r (warped_updates g ds)).
  { clear. induction ds as [|d ds IH]; intros g; [reflexivity|]. unfold warped_updates in *. cbn [fold_left]. rewrite <- IH. f_equal.
    unfold warped_update. cbn [wm_model warped_options]. destruct (wm_model g); reflexivity. }
  rewrite H. reflexivity.
Qed.

(** Columns. *)
Lemma vpick_nth f : forall a b j x y, nth_error a j = Some x -> nth_error b j = Some y -> nth_error (vpick f a b) j = Some (f x y).
Proof.
  induction a as [|u a IH]; intros [|w b] [|j] x y; cbn; try discriminate.
  - intros A B. now injection A as <-; injection B as <-.
  - apply IH.
Qed.
Lemma vpick_length f : forall a b, List.length a = List.length b -> List.length (vpick f a b) = List.length a.
Proof. induction a as [|u a IH]; intros [|w b]; cbn; intros E; try lia. f_equal. apply IH. lia. Qed.
Lemma lower_le a b : (lower a b <= a)%Qc /\ (lower a b <= b)%Qc /\ (lower a b = a \/ lower a b = b).
Proof.
  unfold lower. destruct (qcle a b) eqn:E.
  - apply qcle_spec in E. split; [apply Qcle_refl|]. auto.
  - apply qcle_false in E. split; [now apply Qclt_le_weak|]. split; [apply Qcle_refl|]. auto.
Qed.
Lemma upper_ge a b : (a <= upper a b)%Qc /\ (b <= upper a b)%Qc /\ (upper a b = a \/ upper a b = b).
Proof.
  unfold upper. destruct (qcle a b) eqn:E.
  - apply qcle_spec in E. split; [auto|]. split; [apply Qcle_refl|]. auto.
  - apply qcle_false in E. split; [apply Qcle_refl|]. split; [now apply Qclt_le_weak|]. auto.
Qed.
Section Fold.
Variables (f : Qc -> Qc -> Qc) (le : Qc -> Qc -> Prop).
Hypothesis LR : forall a, le a a.
Hypothesis LT : forall a b c, le a b -> le b c -> le a c.
Hypothesis FS : forall a b, le (f a b) a /\ le (f a b) b /\ (f a b = a \/ f a b = b).
Lemma fold_pick n : forall X r, List.length r = n -> Forall (fun r => List.length r = n) X ->
  let b := fold_left (vpick f) X r in
  List.length b = n /\ (forall j v w s, nth_error b j = Some v -> In s (r :: X) -> nth_error s j = Some w -> le v w) /\
  (forall j v, nth_error b j = Some v -> exists s, In s (r :: X) /\ nth_error s j = Some v).
Proof.
  induction X as [|x X IH]; intros r R H.
  - cbn. split; [exact R|]. split.
    + intros j v w s A [<-|[]] B. rewrite A in B. injection B as <-. apply LR.
    + intros j v A. exists r. auto.
  - inversion H as [|? ? Hx HX]; subst. cbn [fold_left].
    assert (L : List.length (vpick f r x) = List.length r) by (apply vpick_length; lia).
    destruct (IH (vpick f r x) L HX) as (A & B & C). split; [exact A|].
    assert (B' : forall j v w s, nth_error (fold_left (vpick f) X (vpick f r x)) j = Some v -> (s = r \/ s = x) -> nth_error s j = Some w -> le v w).
    { intros j v w s V S Wd. assert (J : j < List.length r). { rewrite <- A. apply nth_error_Some. congruence. }
      destruct (nth_error r j) as [a|] eqn:Ra; [|apply nth_error_None in Ra; lia].
      destruct (nth_error x j) as [c|] eqn:Xc; [|apply nth_error_None in Xc; lia].
      pose proof (vpick_nth f _ _ _ _ _ Ra Xc) as Q. specialize (B j v _ _ V (or_introl eq_refl) Q).
      destruct (FS a c) as (F1 & F2 & _). destruct S as [-> | ->]; [rewrite Ra in Wd|rewrite Xc in Wd]; injection Wd as <-; eapply LT; eauto. }
    split.
    + intros j v w s V [<-|[<-|I]] Wd; eauto. eapply B; eauto. right. exact I.
    + intros j v V. destruct (C j v V) as (s & [<-|I] & S); [|exists s; cbn; auto].
      assert (J : j < List.length r). { rewrite <- L. apply nth_error_Some. congruence. }
      destruct (nth_error r j) as [a|] eqn:Ra; [|apply nth_error_None in Ra; lia].
      destruct (nth_error x j) as [c|] eqn:Xc; [|apply nth_error_None in Xc; lia].
      rewrite (vpick_nth f _ _ _ _ _ Ra Xc) in S. injection S as <-.
      destruct (FS a c) as (_ & _ & [-> | ->]); [exists r|exists x]; cbn; auto.
Qed.
End Fold.
Lemma axis0_bounds n X : width n X -> bounds_of n X (axis0 lower X) (axis0 upper X).
Proof.
  intros [NE H]. destruct X as [|r X]; [easy|]. inversion H as [|? ? R HX]; subst. cbn [axis0].
  destruct (fold_pick lower Qcle Qcle_refl Qcle_trans lower_le (List.length r) X r eq_refl HX) as (A & B & C).
  destruct (fold_pick upper (fun a b => Qcle b a) Qcle_refl (fun a b c p q => Qcle_trans _ _ _ q p)) with (n := List.length r) (X := X) (r := r) as (A' & B' & C'); auto.
  { intros a b. apply upper_ge. }
  split; [exact A|]. split; [exact A'|]. split; [|split; [exact C|exact C']].
  apply Forall_forall. intros s I j l h v Hl Hh Hv. split; [eapply B; eauto|eapply B'; eauto].
Qed.
Lemma bounds_unique n X lo hi lo' hi' : width n X -> bounds_of n X lo hi -> bounds_of n X lo' hi' -> lo = lo' /\ hi = hi'.
Proof.
  intros [NE WD] (L1 & H1 & I1 & A1 & B1) (L2 & H2 & I2 & A2 & B2).
  rewrite Forall_forall in I1, I2, WD.
  assert (G : forall j, j < n -> exists l h l' h', nth_error lo j = Some l /\ nth_error hi j = Some h /\ nth_error lo' j = Some l' /\ nth_error hi' j = Some h').
  { intros j J. destruct (nth_error lo j) as [l|] eqn:El; [|apply nth_error_None in El; lia]. destruct (nth_error hi j) as [h|] eqn:Eh; [|apply nth_error_None in Eh; lia].
    destruct (nth_error lo' j) as [l'|] eqn:El'; [|apply nth_error_None in El'; lia]. destruct (nth_error hi' j) as [h'|] eqn:Eh'; [|apply nth_error_None in Eh'; lia]. eauto 10. }
  split; apply nth_error_ext; intros j; (destruct (Nat.lt_ge_cases j n) as [J|J];
    [|rewrite (proj2 (nth_error_None _ j)) by lia; symmetry; apply nth_error_None; lia]);
    destruct (G j J) as (l & h & l' & h' & El & Eh & El' & Eh').
  - rewrite El, El'. f_equal. destruct (A1 j l El) as (r & R & Er). destruct (A2 j l' El') as (r' & R' & Er').
    destruct (I2 r R j l' h' l El' Eh' Er) as [P _]. destruct (I1 r' R' j l h l' El Eh Er') as [Q _]. now apply Qcle_antisym.
  - rewrite Eh, Eh'. f_equal. destruct (B1 j h Eh) as (r & R & Er). destruct (B2 j h' Eh') as (r' & R' & Er').
    destruct (I2 r R j l' h' h El' Eh' Er) as [_ P]. destruct (I1 r' R' j l h h' El Eh Er') as [_ Q]. now apply Qcle_antisym.
Qed.

Lemma one_call_eq (g : iwarped K N W) (l : list optcall) : (if Nat.ltb 0 (im_iters g) then
    l ++ [if Nat.eqb (im_restarts g) 1 then Plain (im_optimizer g) (im_iters g) else Restarts (im_restarts g) (im_optimizer g) (im_iters g)] else l) =
  l ++ one_call (im_optimizer g) (im_iters g) (im_restarts g).
Proof.
  unfold one_call. destruct (im_iters g) as [|i]; cbn [Nat.ltb Nat.leb]; [now rewrite app_nil_r|].
  destruct (im_restarts g) as [|[|r]]; reflexivity.
Qed.
Definition same_iwarped (g g' : iwarped K N W) : Prop := im_optimizer g = im_optimizer g' /\ im_iters g = im_iters g' /\ im_restarts g = im_restarts g'.
Lemma iwarped_step (g : iwarped K N W) m d : im_model g = Some m -> same_iwarped g (iwarped_update g d) /\
  im_model (iwarped_update g d) = Some (mk_igp (i_kern m) (i_fun m) (i_indices m) (i_Xmin m) (i_Xmax m) (i_constraint m) d (i_opts m ++ one_call (im_optimizer g) (im_iters g) (im_restarts g))).
Proof.
  intros M. rewrite <- one_call_eq. unfold iwarped_update. rewrite M. cbn. destruct (im_iters g); cbn; repeat split; reflexivity.
Qed.
Lemma iwarped_later (ds : list data) : forall (g : iwarped K N W) m, im_model g = Some m ->
  exists m', im_model (iwarped_updates g ds) = Some m' /\ i_kern m' = i_kern m /\ i_fun m' = i_fun m /\ i_indices m' = i_indices m /\ i_Xmin m' = i_Xmin m /\ i_Xmax m' = i_Xmax m /\
    i_constraint m' = i_constraint m /\ i_data m' = last ds (i_data m) /\ i_opts m' = i_opts m ++ concat (repeat (one_call (im_optimizer g) (im_iters g) (im_restarts g)) (List.length ds)).
Proof.
  induction ds as [|d ds IH]; intros g m M.
  - exists m. cbn. rewrite app_nil_r. auto 10.
  - unfold iwarped_updates. cbn [fold_left]. fold (iwarped_updates (iwarped_update g d) ds).
    destruct (iwarped_step g m d M) as ((S1 & S2 & S3) & M'). destruct (IH _ _ M') as (m' & A & B & C & D & E & F & H & I & J).
    exists m'. cbn in B, C, D, E, F, H, I. rewrite last_cons. do 8 (split; [assumption|]). rewrite J. cbn [i_opts List.length repeat concat]. rewrite <- S1, <- S2, <- S3, <- app_assoc. reflexivity.
Qed.
Lemma iwarped_spec (g : iwarped K N W) d0 ds : im_model g = None ->
  exists m, im_model (iwarped_updates g (d0 :: ds)) = Some m /\
    i_kern m = (match im_kernel g with Some k => k | None => Matern52d (ncols d0) (im_ARD g) end) /\ i_fun m = im_fun g /\ i_indices m = im_indices g /\
    i_Xmin m = axis0 lower (fst d0) /\ i_Xmax m = axis0 upper (fst d0) /\ i_constraint m = (if im_exact g then NFixed else NBounded) /\ i_data m = last ds d0 /\
    i_opts m = concat (repeat (one_call (im_optimizer g) (im_iters g) (im_restarts g)) (S (List.length ds))).
Proof.
  intros M. unfold iwarped_updates. cbn [fold_left]. fold (iwarped_updates (iwarped_update g d0) ds).
  assert (E : iwarped_update g d0 = iwarped_update (iwarped_create g d0) d0).
  { unfold iwarped_update at 1. rewrite M. unfold iwarped_update. unfold iwarped_create. cbn. destruct (im_iters g); reflexivity. }
  rewrite E. destruct (iwarped_step (iwarped_create g d0) _ d0 eq_refl) as ((S1 & S2 & S3) & M'). destruct (iwarped_later ds _ _ M') as (m & A & B & C & D & F & H & I & J & L).
  exists m. cbn in B, C, D, F, H, I, J. do 8 (split; [assumption|]). rewrite L, <- S1, <- S2, <- S3. cbn [i_opts iwarped_create with_igp im_optimizer im_iters im_restarts repeat concat]. reflexivity.
Qed.
Lemma iwarped_same (g : iwarped K N W) n ds : im_model (iwarped_updates (iwarped_noise n g) ds) = im_model (iwarped_updates g ds).
Proof.
  assert (H : forall ds (g : iwarped K N W), iwarped_updates (iwarped_noise n g) ds = iwarped_noise n (iwarped_updates g ds)).
  { clear. induction ds as [|d ds IH]; intros g; [reflexivity|]. unfold iwarped_updates in *. cbn [fold_left]. rewrite <- IH. f_equal.
    unfold iwarped_update. cbn [im_model iwarped_noise]. destruct (im_model g); cbn; destruct (im_iters g); reflexivity. }
  rewrite H. reflexivity.
Qed.
(** The box of the first data is that of data that contain it exactly when they lie inside. *)
Lemma box_exactly n X0 X : width n X0 -> width n X -> incl X0 X ->
  (bounds_of n X (axis0 lower X0) (axis0 upper X0) <-> Forall (inside (axis0 lower X0) (axis0 upper X0)) X).
Proof.
  intros W0 W1 I. destruct (axis0_bounds n X0 W0) as (A & B & C & D & E). split; [intros (_ & _ & H & _); exact H|].
  intros H. split; [exact A|]. split; [exact B|]. split; [exact H|]. split; intros j v V; [destruct (D j v V) as (r & R & Er)|destruct (E j v V) as (r & R & Er)]; eauto.
Qed.
End G.

(** MCMC. *)
Section M.
Context {K N P Rnd : Type}.
Variables (init : kernel K -> option N -> data -> list P) (optimise : data -> list P -> list P) (perturb : Rnd -> list P -> list P)
  (hmc : Rnd -> data -> Qc -> nat -> nat -> list P -> list (list P) * list P).
Notation upd := (mcmc_update init optimise perturb hmc).
Definition same_mcmc (g g' : mcmc K N P) : Prop := mm_noise g = mm_noise g' /\ mm_exact g = mm_exact g' /\ mm_samples g = mm_samples g' /\ mm_interval g = mm_interval g' /\
  mm_burnin g = mm_burnin g' /\ mm_step g = mm_step g' /\ mm_leapfrog g = mm_leapfrog g'.
Definition started (g : mcmc K N P) (d : data) : kernel K * option N * noise_constraint * list P :=
  match mm_model g with
  | Some m => (m_kern m, m_noise m, m_constraint m, m_params m)
  | None => let kn := match mm_kernel g with Some k => k | None => RBF (ncols d) end in
      (kn, mm_noise g, if mm_exact g then NFixed else NPositive, init kn (mm_noise g) d)
  end.
Lemma mcmc_step g z d g1 r : upd g z d = (g1, r) ->
  same_mcmc g g1 /\ mm_kernel g1 = (match mm_model g with None => None | Some _ => mm_kernel g end) /\ exists m, mm_model g1 = Some m /\ m_data m = d /\
    (m_kern m, m_noise m, m_constraint m) = fst (started g d) /\
    (let p := perturb z (optimise d (snd (started g d))) in
     m_params m = snd (hmc z d (mm_step g) (mm_burnin g + mm_samples g * mm_interval g) (mm_leapfrog g) p) /\
     (mm_interval g = 0 -> r = Raise ValueError /\ mm_hmc g1 = mm_hmc g) /\
     (mm_interval g <> 0 -> r = Ok tt /\
       mm_hmc g1 = Some (stride (mm_interval g) (mm_burnin g) (fst (hmc z d (mm_step g) (mm_burnin g + mm_samples g * mm_interval g) (mm_leapfrog g) p))))).
Proof.
  unfold mcmc_update, started. destruct (mm_model g) as [m|] eqn:M; cbn;
  unfold hmc_samples; destruct (Nat.eqb_spec (mm_interval g) 0) as [I0|I0].
  all: match goal with |- context [hmc ?a ?b ?c ?d ?e ?f] => destruct (hmc a b c d e f) as [ss q] eqn:H end.
  all: intros E; injection E as <- <-; cbn; split; [repeat split; reflexivity|]; split; [reflexivity|].
  all: eexists; split; [reflexivity|]; cbn; split; [reflexivity|]; split; [destruct (mm_kernel g); reflexivity|].
  all: try (destruct (mm_kernel g); rewrite H). all: cbn; split; auto; split; intros J; try congruence; auto.
Qed.
End M.
Section M2.
Context {K N P Rnd : Type}.
Variables (init : kernel K -> option N -> data -> list P) (optimise : data -> list P -> list P) (perturb : Rnd -> list P -> list P)
  (hmc : Rnd -> data -> Qc -> nat -> nat -> list P -> list (list P) * list P).

Lemma same_trans (a b c : mcmc K N P) : same_mcmc a b -> same_mcmc b c -> same_mcmc a c.
Proof. unfold same_mcmc. intuition congruence. Qed.
Lemma mcmc_later : forall l (g : mcmc K N P) m g', mm_model g = Some m -> mcmc_updates init optimise perturb hmc g l g' ->
  same_mcmc g g' /\ mm_kernel g' = mm_kernel g /\ exists m', mm_model g' = Some m' /\ m_kern m' = m_kern m /\ m_noise m' = m_noise m /\ m_constraint m' = m_constraint m /\ m_data m' = last (map snd l) (m_data m).
Proof.
  induction l as [|[z d] l IH]; intros g m g' M U; inversion U as [|? ? ? g1 ? ? E U']; subst.
  - split; [repeat split; reflexivity|]. split; [reflexivity|]. exists m. auto.
  - destruct (mcmc_step _ _ _ _ _ _ _ _ _ E) as (S & KK & m1 & M1 & D1 & F & _). rewrite M in KK. unfold started in F. rewrite M in F. cbn in F. injection F as F1 F2 F3.
    destruct (IH _ _ _ M1 U') as (S' & KK' & m' & M' & A & B & C & D). split; [eapply same_trans; eauto|]. split; [congruence|].
    exists m'. cbn [map snd]. rewrite last_cons, <- D1. repeat split; congruence.
Qed.
Lemma mcmc_spec (g : mcmc K N P) z0 d0 l g' : mm_model g = None -> mcmc_updates init optimise perturb hmc g ((z0, d0) :: l) g' ->
  exists m, mm_model g' = Some m /\ m_kern m = (match mm_kernel g with Some k => k | None => RBF (ncols d0) end) /\ m_noise m = mm_noise g /\
    m_constraint m = (if mm_exact g then NFixed else NPositive) /\ m_data m = last (map snd l) d0 /\ mm_kernel g' = None.
Proof.
  intros M U. inversion U as [|? ? ? g1 ? ? E U']; subst.
  destruct (mcmc_step _ _ _ _ _ _ _ _ _ E) as (_ & KK & m1 & M1 & D1 & F & _). rewrite M in KK. unfold started in F. rewrite M in F. cbn in F. injection F as F1 F2 F3.
  destruct (mcmc_later _ _ _ _ M1 U') as (_ & KK' & m' & M' & A & B & C & D). exists m'. rewrite D1 in D. repeat split; congruence.
Qed.
Lemma mcmc_last : forall l (g : mcmc K N P) z d g', mcmc_updates init optimise perturb hmc g (l ++ [(z, d)]) g' ->
  same_mcmc g g' /\ exists g1 ss, mcmc_updates init optimise perturb hmc g l g1 /\ mm_hmc g' = Some ss /\
    ss = stride (mm_interval g) (mm_burnin g) (fst (hmc z d (mm_step g) (mm_burnin g + mm_samples g * mm_interval g) (mm_leapfrog g) (perturb z (optimise d (snd (started init g1 d)))))) /\ 1 <= mm_interval g.
Proof.
  induction l as [|[z1 d1] l IH]; intros g z d g' U; cbn [app] in U; inversion U as [|? ? ? g1 ? ? E U']; subst;
    destruct (mcmc_step _ _ _ _ _ _ _ _ _ E) as (S & _ & m1 & M1 & D1 & F & _ & Z & NZ).
  - inversion U'; subst. split; [exact S|]. destruct (Nat.eq_dec (mm_interval g) 0) as [I|I]; [destruct (Z I); discriminate|].
    destruct (NZ I) as [_ H]. exists g. eexists. split; [constructor|]. split; [exact H|]. split; [reflexivity|lia].
  - destruct (IH _ _ _ _ U') as (S' & p & ss & U1 & A & B & C). split; [eapply same_trans; eauto|].
    destruct S as (s1 & s2 & s3 & s4 & s5 & s6 & s7). exists p, ss. split; [econstructor; eauto|]. rewrite s3, s4, s5, s6, s7. auto.
Qed.
End M2.

(** Forests. *)
Section F.
Local Open Scope R_scope.
Lemma rsum_bound a b l : List.Forall (fun v => a <= v <= b) l -> a * INR (List.length l) <= rsum_list l <= b * INR (List.length l).
Proof.
  induction 1 as [|v l H F IH]; [unfold rsum_list; cbn; lra|]. unfold rsum_list in *. cbn [fold_right List.length]. rewrite S_INR. nra.
Qed.
Lemma len_pos {A} (l : list A) : l <> [] -> 0 < INR (List.length l).
Proof. intros H. apply lt_0_INR. destruct l; [easy|cbn; lia]. Qed.
Lemma mean_bound a b l : l <> [] -> List.Forall (fun v => a <= v <= b) l -> a <= np_mean l <= b.
Proof.
  intros NE F. pose proof (len_pos l NE) as L. destruct (rsum_bound a b l F) as [A B]. unfold np_mean. split.
  - apply Rmult_le_reg_r with (INR (List.length l)); [exact L|]. unfold Rdiv. rewrite Rmult_assoc, Rinv_l, Rmult_1_r by lra. exact A.
  - apply Rmult_le_reg_r with (INR (List.length l)); [exact L|]. unfold Rdiv. rewrite Rmult_assoc, Rinv_l, Rmult_1_r by lra. exact B.
Qed.
Lemma rsum_zero l : List.Forall (fun v => 0 <= v) l -> rsum_list l = 0 -> List.Forall (fun v => v = 0) l.
Proof.
  induction 1 as [|v l H F IH]; [constructor|]. unfold rsum_list in *. cbn [fold_right]. intros E.
  assert (P : 0 <= fold_right Rplus 0 l). { clear - F. induction F; cbn; lra. }
  constructor; [lra|apply IH; lra].
Qed.
Lemma std_zero l : l <> [] -> (np_std l = 0 <-> forall u v, In u l -> In v l -> u = v).
Proof.
  intros NE. pose proof (len_pos l NE) as L. unfold np_std. set (sq := map _ l).
  assert (SQ : List.Forall (fun v => 0 <= v) sq). { unfold sq. apply List.Forall_forall. intros v I. apply in_map_iff in I. destruct I as (p & <- & _). apply Rle_0_sqr. }
  assert (NS : sq <> []) by (unfold sq; destruct l; [easy|discriminate]).
  assert (M : 0 <= np_mean sq).
  { pose proof (len_pos sq NS) as L2. unfold np_mean. apply Rmult_le_pos; [|apply Rlt_le, Rinv_0_lt_compat, L2]. clear - SQ. unfold rsum_list. induction SQ; cbn; lra. }
  split.
  - intros E. apply sqrt_eq_0 in E; [|exact M]. unfold np_mean in E at 1.
    assert (Z : rsum_list sq = 0). { pose proof (len_pos sq NS) as L2. apply Rmult_integral in E. destruct E as [E|E]; [exact E|]. pose proof (Rinv_0_lt_compat _ L2). lra. }
    apply rsum_zero in Z; [|exact SQ]. rewrite List.Forall_forall in Z.
    assert (A : forall u, In u l -> u = np_mean l).
    { intros u I. specialize (Z ((u - np_mean l) * (u - np_mean l))). assert (Z' : (u - np_mean l) * (u - np_mean l) = 0) by (apply Z, in_map_iff; eauto).
      apply Rmult_integral in Z'. lra. }
    intros u v U V. rewrite (A u U), (A v V). reflexivity.
  - intros E. destruct l as [|a l]; [easy|].
    assert (A : np_mean (a :: l) = a).
    { assert (B : a <= np_mean (a :: l) <= a); [|lra]. apply mean_bound; [discriminate|]. apply List.Forall_forall. intros v V. rewrite (E v a V (or_introl eq_refl)). lra. }
    replace (np_mean sq) with 0; [apply sqrt_0|]. assert (B : 0 <= np_mean sq <= 0); [|lra]. apply mean_bound; [exact NS|]. apply List.Forall_forall. intros v V.
    unfold sq in V. apply in_map_iff in V. destruct V as (p & <- & I). rewrite A, (E p a I (or_introl eq_refl)). lra.
Qed.
Lemma std_nonneg l : 0 <= np_std l.
Proof. apply sqrt_pos. Qed.
Lemma fold_min : forall l a, In (fold_left Rmin l a) (a :: l) /\ forall v, In v (a :: l) -> fold_left Rmin l a <= v.
Proof.
  induction l as [|b l IH]; intros a; cbn [fold_left].
  - split; [left; reflexivity|]. intros v [<-|[]]. lra.
  - destruct (IH (Rmin a b)) as [A B]. split.
    + destruct A as [<-|A]; [|right; right; exact A]. unfold Rmin. destruct (Rle_dec a b); [left|right; left]; reflexivity.
    + pose proof (B (Rmin a b) (or_introl eq_refl)) as C. pose proof (Rmin_l a b). pose proof (Rmin_r a b). intros v [<-|[<-|I]]; [lra|lra|]. apply B. right. exact I.
Qed.
Variables (fit : list pt -> list R -> list tree) (refit : list tree -> list pt -> list R -> list tree).
Lemma rf_cold ds d : rf_forest (rf_updates fit refit (new_rf false) (ds ++ [d])) = Some (fit (fst d) (snd d)) /\
  rf_X (rf_updates fit refit (new_rf false) (ds ++ [d])) = fst d /\ rf_Y (rf_updates fit refit (new_rf false) (ds ++ [d])) = snd d.
Proof.
  unfold rf_updates. rewrite fold_left_app. cbn [fold_left].
  assert (W : forall ds g, rf_warm g = false -> rf_warm (fold_left (rf_update fit refit) ds g) = false).
  { clear. induction ds as [|[X Y] ds IH]; intros g H; [exact H|]. cbn [fold_left]. apply IH. exact H. }
  destruct d as [X Y]. unfold rf_update at 1 3 5. rewrite (W ds (new_rf false) eq_refl). cbn. destruct (rf_forest _); auto.
Qed.
Lemma rf_warm_stuck d0 ds : (forall f X Y, refit f X Y = f) -> rf_forest (rf_updates fit refit (new_rf true) (d0 :: ds)) = Some (fit (fst d0) (snd d0)).
Proof.
  intros H. unfold rf_updates. destruct d0 as [X0 Y0]. cbn [fold_left rf_update new_rf rf_warm rf_forest fst snd].
  generalize X0 at 1. generalize Y0 at 1. induction ds as [|[X Y] ds IH]; intros Y1 X1; [reflexivity|]. cbn [fold_left rf_update rf_warm rf_forest]. rewrite H. apply IH.
Qed.
End F.
