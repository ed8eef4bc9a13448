(** The Gaussian integral, from first principles: the integral of exp(-t^2) over [0, oo) is sqrt(PI)/2. *)
From Coq Require Import Reals Lra Psatz.
From Coquelicot Require Import Coquelicot.
Local Open Scope R_scope.

Lemma cont_of_derive (f : R -> R) x : ex_derive f x -> continuous f x.
Proof. apply (ex_derive_continuous (K := R_AbsRing) (V := R_NormedModule)). Qed.
Lemma ex_RInt_cont (f : R -> R) a b : (forall x, continuous f x) -> ex_RInt f a b.
Proof. intros C. apply (ex_RInt_continuous (V:=R_CompleteNormedModule)). intros z _. apply C. Qed.
Lemma derive_RInt (f : R -> R) a x : (forall y, continuous f y) -> is_derive (fun b => RInt f a b) x (f x).
Proof.
  intros C. apply (is_derive_RInt f _ a x); [|apply C]. apply filter_forall. intros b.
  apply (RInt_correct (V:=R_CompleteNormedModule)). now apply ex_RInt_cont.
Qed.

Definition g2 (t : R) : R := exp (- (t * t)).
Lemma g2_cont x : continuous g2 x.
Proof. apply cont_of_derive. unfold g2. auto_derive. exact I. Qed.
Definition GI (x : R) : R := RInt g2 0 x.
Lemma GI_derive x : is_derive GI x (g2 x).
Proof. apply derive_RInt. apply g2_cont. Qed.
Lemma GI_0 : GI 0 = 0.
Proof. unfold GI. rewrite RInt_point. reflexivity. Qed.

Definition gj (x t : R) : R := exp (- (x * x) * (1 + t * t)) / (1 + t * t).
Lemma pos1 t : 0 < 1 + t * t. Proof. nra. Qed.
Lemma gj_cont x t : continuous (gj x) t.
Proof. apply cont_of_derive. unfold gj. auto_derive. pose proof (pos1 t). lra. Qed.
Definition GJ (x : R) : R := RInt (gj x) 0 1.
Definition dgj (x t : R) : R := -2 * x * exp (- (x * x) * (1 + t * t)).
Lemma gj_derive x t : is_derive (fun z => gj z t) x (dgj x t).
Proof. unfold gj, dgj. pose proof (pos1 t). auto_derive; [exact I|]. field. lra. Qed.
Lemma dgj_2d x t : continuity_2d_pt (fun u v => Derive (fun z => gj z v) u) x t.
Proof.
  apply (continuity_2d_pt_ext (fun u v => dgj u v)).
  { intros u v. symmetry. apply is_derive_unique, gj_derive. }
  unfold dgj. apply continuity_2d_pt_mult.
  - apply continuity_2d_pt_mult; [apply continuity_2d_pt_const|apply continuity_2d_pt_id1].
  - apply (continuity_1d_2d_pt_comp exp (fun u v => - (u * u) * (1 + v * v))).
    + apply derivable_continuous_pt, derivable_pt_exp.
    + apply continuity_2d_pt_mult.
      * apply continuity_2d_pt_opp. apply continuity_2d_pt_mult; apply continuity_2d_pt_id1.
      * apply continuity_2d_pt_plus; [apply continuity_2d_pt_const|]. apply continuity_2d_pt_mult; apply continuity_2d_pt_id2.
Qed.
Lemma GJ_derive x : is_derive GJ x (RInt (dgj x) 0 1).
Proof.
  evar_last.
  - apply (is_derive_RInt_param gj 0 1 x).
    + apply filter_forall. intros y t _. eexists. apply gj_derive.
    + intros t _. apply dgj_2d.
    + apply filter_forall. intros y. apply ex_RInt_cont. intros t. apply gj_cont.
  - apply RInt_ext. intros t _. apply is_derive_unique, gj_derive.
Qed.
Lemma dgj_int x : RInt (dgj x) 0 1 = - 2 * (g2 x * GI x).
Proof.
  assert (E : RInt (fun y => scal x (g2 (x * y + 0))) 0 1 = GI x).
  { etransitivity; [apply (RInt_comp_lin (V:=R_CompleteNormedModule) g2 x 0 0 1); apply ex_RInt_cont, g2_cont|]. unfold GI. f_equal; ring. }
  rewrite <- E.
  transitivity (RInt (fun t => scal (-2 * g2 x) (scal x (g2 (x * t + 0)))) 0 1).
  - apply RInt_ext. intros t _. unfold dgj, g2, scal; simpl; unfold mult; simpl.
    replace (- (x * x) * (1 + t * t)) with (- (x * x) + - ((x * t + 0) * (x * t + 0))) by ring. rewrite exp_plus. ring.
  - etransitivity; [apply (RInt_scal (V:=R_CompleteNormedModule) (fun t => scal x (g2 (x * t + 0))) 0 1 (-2 * g2 x))|unfold scal; simpl; unfold mult; simpl; ring].
    apply ex_RInt_cont. intros y. apply cont_of_derive. unfold scal, g2; simpl; unfold mult; simpl. auto_derive. exact I.
Qed.
Lemma sum_derive x : is_derive (fun x => GI x * GI x + GJ x) x 0.
Proof.
  evar_last.
  - apply (is_derive_plus (fun x => GI x * GI x) GJ x); [|apply GJ_derive].
    apply (is_derive_mult GI GI); [apply GI_derive|apply GI_derive|intros; apply Rmult_comm].
  - rewrite dgj_int. unfold plus, mult; simpl. unfold mult; simpl. ring.
Qed.
Lemma GJ_0 : GJ 0 = PI / 4.
Proof.
  unfold GJ. apply is_RInt_unique. evar_last.
  - apply (is_RInt_derive atan (gj 0)).
    + intros x _. unfold gj. evar_last; [apply is_derive_atan|]. replace (- (0 * 0) * (1 + x * x)) with 0 by ring. rewrite exp_0.
      unfold Rsqr, Rdiv. pose proof (pos1 x). field. lra.
    + intros x _. apply gj_cont.
  - unfold minus, plus, opp; simpl. rewrite atan_0, atan_1. ring.
Qed.
Lemma GI_GJ x : 0 <= x -> GI x * GI x + GJ x = PI / 4.
Proof.
  intros H. destruct (Rle_lt_or_eq_dec 0 x H) as [L|<-].
  - rewrite <- (eq_is_derive (fun x => GI x * GI x + GJ x) 0 x); [rewrite GI_0, GJ_0; ring|intros t _; apply sum_derive|exact L].
  - rewrite GI_0, GJ_0. ring.
Qed.
Lemma GJ_bound x : 0 <= GJ x <= g2 x.
Proof.
  split.
  - apply RInt_ge_0; [lra|apply ex_RInt_cont, gj_cont|]. intros t _. unfold gj. apply Rmult_le_pos; [left; apply exp_pos|].
    left. apply Rinv_0_lt_compat, pos1.
  - replace (g2 x) with (RInt (fun _ => g2 x) 0 1).
    + apply RInt_le; [lra|apply ex_RInt_cont, gj_cont|apply ex_RInt_cont; intros; apply continuous_const|].
      intros t _. unfold gj, g2. apply (Rmult_le_reg_r (1 + t * t)); [apply pos1|]. unfold Rdiv. rewrite Rmult_assoc, Rinv_l, Rmult_1_r by (pose proof (pos1 t); lra).
      apply Rle_trans with (exp (- (x * x)) * 1); [|apply Rmult_le_compat_l; [left; apply exp_pos|nra]]. rewrite Rmult_1_r.
      destruct (Req_dec (x * t) 0) as [Z|Z].
      * replace (- (x * x) * (1 + t * t)) with (- (x * x) - (x * t) * (x * t)) by ring. rewrite Z. right. f_equal. ring.
      * left. apply exp_increasing. nra.
    + rewrite RInt_const. unfold scal; simpl; unfold mult; simpl. ring.
Qed.
Lemma g2_lim : is_lim g2 p_infty 0.
Proof.
  apply (is_lim_le_le_loc (fun _ => 0) (fun x => exp (- x)) g2 p_infty 0).
  - exists 1. intros x H. unfold g2. split; [left; apply exp_pos|]. left. apply exp_increasing. nra.
  - apply is_lim_const.
  - evar_last. { apply (is_lim_comp exp (fun x => - x) p_infty 0 m_infty).
    + apply is_lim_exp_m.
    + evar_last; [apply (is_lim_opp (fun x => x) p_infty p_infty), is_lim_id|reflexivity].
    + exists 0. discriminate. } reflexivity.
Qed.
Lemma GI_nonneg x : 0 <= x -> 0 <= GI x.
Proof. intros H. unfold GI. apply RInt_ge_0; [exact H|apply ex_RInt_cont, g2_cont|]. intros t _. left. apply exp_pos. Qed.
Theorem gauss_lim : is_lim GI p_infty (sqrt PI / 2).
Proof.
  assert (E : sqrt (PI / 4) = sqrt PI / 2).
  { rewrite sqrt_div_alt by lra. f_equal. rewrite <- (sqrt_square 2) by lra. f_equal; ring. }
  apply (is_lim_ext_loc (fun x => sqrt (PI / 4 - GJ x))).
  { exists 0. intros x H. rewrite <- (sqrt_square (GI x)) by (apply GI_nonneg; lra). f_equal. pose proof (GI_GJ x). lra. }
  rewrite <- E. apply (is_lim_comp sqrt (fun x => PI / 4 - GJ x) p_infty (sqrt (PI / 4)) (PI / 4)).
  - apply is_lim_continuity. apply continuity_pt_sqrt. pose proof PI_RGT_0. lra.
  - evar_last; [apply (is_lim_minus (fun _ => PI / 4) GJ p_infty (PI / 4) 0); [apply is_lim_const| |reflexivity]|].
    + apply (is_lim_le_le_loc (fun _ => 0) g2); [|apply is_lim_const|apply g2_lim]. exists 0. intros x _. apply GJ_bound.
    + simpl. apply (f_equal Finite). ring.
  - exists 0. intros x H. intros Q. injection Q as Q.
    assert (GJ x = 0) by lra. clear Q.
    assert (0 < GJ x). { unfold GJ. apply RInt_gt_0; [lra| |]; intros; [unfold gj; apply Rdiv_lt_0_compat; [apply exp_pos|apply pos1]|apply gj_cont]. }
    lra.
Qed.
