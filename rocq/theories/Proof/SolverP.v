(** Local optimizers. *)
From Coq Require Import String List ZArith QArith Qcanon Bool Lia.
From Verif.Model Require Import Py Space Design Optim Solver.
From Verif.Spec Require Import SpaceSpec SuggestSpec MaskSpec SolverSpec.
From Verif.Proof Require Import Num Dec SuggestP.
Import ListNotations.
Local Open Scope nat_scope.

Lemma combine_split' (bs : list (Qc * Qc)) : combine (map fst bs) (map snd bs) = bs.
Proof. induction bs as [|[a b] bs IH]; simpl; congruence. Qed.

Lemma choose_cases name o : choose_optimizer name = Ok o ->
  (name = "lbfgs"%string /\ o = OLbfgs) \/ (name = "DIRECT"%string /\ o = ODirect) \/ (name = "CMA"%string /\ o = OCma).
Proof.
  unfold choose_optimizer. destruct (String.eqb_spec name "lbfgs"); [intros [= <-]; auto|]. destruct (String.eqb_spec name "DIRECT"); [intros [= <-]; auto|].
  destruct (String.eqb_spec name "CMA"); [intros [= <-]; auto|discriminate].
Qed.

Lemma lbfgs_inv s bs n x0 f df g x v : lbfgs_optimize s bs n x0 f df g = Ok (x, v) ->
  exists F a, s F x0 bs n = Ok a /\
    (F = Approx f \/ exists h, g = Some h /\ F = Exact (fun y => w <- f y ;; p <- h y ;; Ok (w, snd p))) /\
    ((la_abnormal a = true /\ x = x0 /\ f x0 = Ok v) \/ (la_abnormal a = false /\ x = la_x a /\ v = la_f a)).
Proof.
  unfold lbfgs_optimize. intro H. apply bind_ok in H as (F & HF & H). apply bind_ok in H as (a & Ha & H). exists F, a. split; auto. split.
  - destruct g as [h|]; [|destruct df; [discriminate|]]; injection HF as <-; eauto.
  - destruct (la_abnormal a); [left|right].
    + apply bind_ok in H as (w & Hw & H). injection H as <- <-. auto.
    + injection H as <- <-. auto.
Qed.
Lemma box_inv (solve : box_solver) bs n x0 f x v :
  (b <- columns bs ;; y <- solve f x0 (fst b) (snd b) n ;; w <- f y ;; Ok (y, w)) = Ok (x, v) ->
  solve f x0 (map fst bs) (map snd bs) n = Ok x /\ f x = Ok v.
Proof.
  intro H. apply bind_ok in H as (b & Hb & H). apply bind_ok in H as (y & Hy & H). apply bind_ok in H as (w & Hw & H). injection H as <- <-.
  destruct bs as [|p bs]; [discriminate|]. injection Hb as <-. auto.
Qed.
Lemma direct_inv lib bs n x0 f x v : direct_optimize lib bs n x0 f = Ok (x, v) ->
  exists s, lib = Some s /\ s f x0 (map fst bs) (map snd bs) n = Ok x /\ f x = Ok v.
Proof. destruct lib as [s|]; [|discriminate]. intro H. exists s. split; auto. now apply box_inv. Qed.
Lemma cma_inv lib bs n x0 f x v : cma_optimize lib bs n x0 f = Ok (x, v) ->
  exists s, lib = Some s /\ length bs <> 1 /\ s f x0 (map fst bs) (map snd bs) n = Ok x /\ f x = Ok v.
Proof.
  unfold cma_optimize. destruct (Nat.eqb_spec (length bs) 1); [discriminate|]. destruct lib as [s|]; [|discriminate].
  intro H. exists s. split; auto. split; auto. now apply box_inv.
Qed.

(** the function L-BFGS-B sees has the values of f *)
Lemma value_at_f f (g : option acqg) F x v : (F = Approx f \/ exists h, g = Some h /\ F = Exact (fun y => w <- f y ;; p <- h y ;; Ok (w, snd p))) ->
  value_at F x = Ok v -> f x = Ok v.
Proof.
  intros [->|(h & _ & ->)] H; [exact H|]. simpl in H. apply bind_ok in H as (p & Hp & H). apply bind_ok in Hp as (w & Hw & Hp). apply bind_ok in Hp as (r & _ & Hp).
  injection Hp as <-. simpl in H. congruence.
Qed.

Theorem reported_value ext name bs x0 f df g x v : honest (so_lbfgs ext) -> optimize_with ext name bs x0 f df g = Ok (x, v) -> f x = Ok v.
Proof.
  intros Hh H. unfold optimize_with in H. apply bind_ok in H as (o & Ho & H). destruct o.
  - apply lbfgs_inv in H as (F & a & Ha & HF & [(_ & -> & Hv)|(Ab & -> & ->)]); auto. eapply value_at_f; eauto.
  - apply direct_inv in H as (s & _ & _ & Hv). auto.
  - apply cma_inv in H as (s & _ & _ & _ & Hv). auto.
Qed.
Theorem stays_inside ext name bs x0 f df g x v : boxed_solvers ext -> inside x0 bs -> optimize_with ext name bs x0 f df g = Ok (x, v) -> inside x bs.
Proof.
  intros (B1 & B2 & B3) I H. unfold optimize_with in H. apply bind_ok in H as (o & Ho & H). destruct o.
  - apply lbfgs_inv in H as (F & a & Ha & HF & [(_ & -> & Hv)|(Ab & -> & ->)]); auto. eapply B1; eauto.
  - apply direct_inv in H as (s & L & S & _). apply B2 in S; auto. rewrite combine_split' in S. exact S.
  - apply cma_inv in H as (s & L & _ & S & _). apply B3 in S; auto. rewrite combine_split' in S. exact S.
Qed.
Theorem lbfgs_no_worse ext bs x0 f df g x v a : honest (so_lbfgs ext) -> improving (so_lbfgs ext) ->
  (forall h y, g = Some h -> (exists w, f y = Ok w) -> exists p, h y = Ok p) ->
  optimize_with ext "lbfgs" bs x0 f df g = Ok (x, v) -> f x0 = Ok a -> (v <= a)%Qc.
Proof.
  intros Hh Hi T H Fa. apply lbfgs_inv in H as (F & r & Ha & HF & [(_ & -> & Hv)|(Ab & -> & ->)]).
  - rewrite Fa in Hv. injection Hv as <-. apply Qcle_refl.
  - eapply Hi; eauto. destruct HF as [->|(h & E & ->)]; [exact Fa|]. simpl. rewrite Fa. cbn [bind]. destruct (T h x0 E) as (p & Hp); [eauto|]. rewrite Hp. reflexivity.
Qed.
Theorem abnormal_is_start ext bs x0 f df g : (forall F, exists a, so_lbfgs ext F x0 bs 1000 = Ok a /\ la_abnormal a = true) ->
  (df = None \/ g <> None) -> optimize_with ext "lbfgs" bs x0 f df g = (v <- f x0 ;; Ok (x0, v)).
Proof.
  intros Hs Hd. unfold optimize_with, lbfgs_optimize. cbn [bind choose_optimizer]. change (choose_optimizer "lbfgs") with (Ok OLbfgs). cbn [bind].
  assert (exists F, match g, df with None, Some _ => Raise NameError | Some h, _ => Ok (Exact (fun x => v <- f x ;; p <- h x ;; Ok (v, snd p))) | None, None => Ok (Approx f) end = Ok F) as (F & ->).
  { destruct g, df; eauto. destruct Hd; congruence. }
  cbn [bind]. destruct (Hs F) as (a & -> & E). cbn [bind]. rewrite E. reflexivity.
Qed.
Theorem df_alone ext bs x0 f df : optimize_with ext "lbfgs" bs x0 f (Some df) None = Raise NameError.
Proof. reflexivity. Qed.
Theorem df_alone_apply ext bs x0 f df odm sp : is_dup odm x0 = Ok false -> apply_with ext "lbfgs" bs x0 f (Some df) None odm None sp = Raise NameError.
Proof. intro H. unfold apply_with. cbn [problem bind]. rewrite H. reflexivity. Qed.
Theorem df_dropped ext name bs x0 f df odm cm sp : apply_with ext name bs x0 f df None odm (Some cm) sp = apply_with ext name bs x0 f None None odm (Some cm) sp.
Proof. reflexivity. Qed.
(** only the gradient of f_df matters, and L-BFGS-B is the only one that sees it *)
Theorem gradient_only ext name bs x0 f df df' g g' : (forall x, exists p p', g x = Ok p /\ g' x = Ok p' /\ snd p = snd p') ->
  (forall F F' y b n, (forall x, match F, F' with Exact h, Exact h' => h x = h' x | Approx h, Approx h' => h x = h' x | _, _ => False end) -> so_lbfgs ext F y b n = so_lbfgs ext F' y b n) ->
  optimize_with ext name bs x0 f df (Some g) = optimize_with ext name bs x0 f df' (Some g').
Proof.
  intros E Ex. unfold optimize_with. destruct (choose_optimizer name) as [[| |]|]; auto. cbn [bind]. unfold lbfgs_optimize. cbn [bind].
  rewrite (Ex _ (Exact (fun x => v <- f x ;; p <- g' x ;; Ok (v, snd p)))); auto. intros x. destruct (f x); auto. cbn [bind].
  destruct (E x) as (p & p' & -> & -> & Q). cbn [bind]. now rewrite Q.
Qed.
Theorem refusals ext name bs x0 f df g :
  (name <> "lbfgs" -> name <> "DIRECT" -> name <> "CMA" -> optimize_with ext name bs x0 f df g = Raise InvalidVariableNameError)%string /\
  (length bs = 1 -> optimize_with ext "CMA" bs x0 f df g = Raise IndexError) /\
  (so_direct ext = None -> optimize_with ext "DIRECT" bs x0 f df g = Raise ImportError) /\
  (so_cma ext = None -> length bs <> 1 -> optimize_with ext "CMA" bs x0 f df g = Raise ImportError).
Proof.
  unfold optimize_with. split; [|split; [|split]].
  - intros A B C. unfold choose_optimizer. destruct (String.eqb_spec name "lbfgs"); [congruence|]. destruct (String.eqb_spec name "DIRECT"); [congruence|].
    destruct (String.eqb_spec name "CMA"); [congruence|reflexivity].
  - intros L. change (choose_optimizer "CMA") with (Ok OCma). cbn [bind]. unfold cma_optimize. rewrite L. reflexivity.
  - intros L. change (choose_optimizer "DIRECT") with (Ok ODirect). cbn [bind]. unfold direct_optimize. rewrite L. reflexivity.
  - intros L N. change (choose_optimizer "CMA") with (Ok OCma). cbn [bind]. unfold cma_optimize. destruct (Nat.eqb_spec (length bs) 1); [congruence|]. now rewrite L.
Qed.

(** The external optimizer of Optim.v that stands for an installation. *)
Definition as_local (ext : solvers) (o : optname) : local_opt := fun bs x0 f g =>
  p <- match o with
       | OLbfgs => lbfgs_optimize (so_lbfgs ext) bs 1000 x0 f None g
       | ODirect => direct_optimize (so_direct ext) bs 1000 x0 f
       | OCma => cma_optimize (so_cma ext) bs 1000 x0 f
       end ;; Ok (fst p).
Lemma bind_assoc {A B C} (r : res A) (f : A -> res B) (g : B -> res C) : (y <- (x <- r ;; f x) ;; g y) = (x <- r ;; y <- f x ;; g y).
Proof. destruct r; reflexivity. Qed.
Theorem apply_refines ext name o bs x0 f g odm ocm sp : choose_optimizer name = Ok o ->
  apply_with ext name bs x0 f None g odm ocm sp = apply_optimizer (run_optimizer o bs (as_local ext o)) x0 f g odm ocm sp.
Proof.
  intros Ho.
  assert (Q : forall x h d k, (d = None \/ k <> None) -> run_optimizer o bs (as_local ext o) x h k = (p <- optimize_with ext name bs x h d k ;; Ok (fst p))).
  { intros x h d k Hd. unfold optimize_with. rewrite Ho. cbn [bind]. unfold run_optimizer, as_local. destruct o; auto.
    - unfold lbfgs_optimize. destruct k; auto. destruct d; auto. destruct Hd; congruence.
    - unfold cma_optimize. destruct (Nat.eqb (length bs) 1); reflexivity. }
  unfold apply_with, apply_optimizer. destruct ocm as [cm|]; cbn [problem bind].
  - destruct (x0_nocontext cm x0) as [x|]; [|reflexivity]. cbn [bind]. destruct g as [g|]; cbn [bind]; (destruct (is_dup odm x0) as [[|]|]; [reflexivity| |reflexivity]); cbn [bind].
    + rewrite (Q _ _ (Some (fun v => p <- f_df_nc cm g v ;; Ok (snd p)))) by (right; discriminate). rewrite bind_assoc. destruct (optimize_with _ _ _ _ _ _ _); reflexivity.
    + rewrite (Q _ _ None) by auto. rewrite bind_assoc. destruct (optimize_with _ _ _ _ _ _ _); reflexivity.
  - destruct (is_dup odm x0) as [[|]|]; [reflexivity| |reflexivity]. cbn [bind]. rewrite (Q _ _ None) by auto. rewrite bind_assoc. destruct (optimize_with _ _ _ _ _ _ _); reflexivity.
Qed.
