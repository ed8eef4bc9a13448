(** C119: rounding whole rows in double precision.  Specification: Spec/FloatSpec.v, Spec/FloatRowSpec.v.  Model: Model/FloatRow.v. *)
From Coq Require Import String Reals List ZArith QArith Qcanon Qreals Bool Lra Lia.
From Flocq Require Import Core IEEE754.BinarySingleNaN.
From Verif.Model Require Import Py Space Optim Float FloatDup FloatRow.
From Verif.Spec Require Import SpaceSpec FloatSpec FloatDupSpec FloatRowSpec Examples.
From Verif.Proof Require Import Num SpaceP FloatP FloatDupP FloatRowP.
Import ListNotations.
Local Open Scope R_scope.

(** Whatever the coordinates (infinite ones too, NaN except for continuous variables): a point of the design space. *)
Theorem C119_in_domain : forall ks x, ks <> [] -> Forall fwell ks -> fblocks freadable ks x ->
  exists r, round_optimum_f ks x = Ok r /\ fblocks fvalid ks r.
Proof.
  intros ks x ND W B. rewrite Forall_forall in W. unfold round_optimum_f.
  destruct (rows_by freadable (fun k _ r => fvalid k r) (fun k b H => proj1 H) ks x) as (bs & rs & _ & F & E & G).
  - intros k b I P. destruct (fround_valid k b (W k I) P) as (r & A & V). eauto.
  - exact B.
  - rewrite E. cbn [bind]. destruct ks as [|k0 ks0]; [congruence|]. eexists. split; [reflexivity|]. clear - F G. revert rs G.
    induction F as [|k b ks bs P F IH]; intros rs G; inversion G; subst; [constructor|]. cbn [fst snd concat] in *. constructor; auto.
Qed.
Print Assumptions C119_in_domain.
(** Rounding twice is rounding once, to the last bit. *)
Theorem C119_idempotent : forall ks x r, Forall fwell ks -> fblocks freadable ks x -> round_optimum_f ks x = Ok r -> round_optimum_f ks r = Ok r.
Proof.
  intros ks x r W B E. rewrite Forall_forall in W. unfold round_optimum_f in *.
  destruct (rows_by freadable (fun k _ r => fvalid k r /\ fround k r = Ok r) (fun k b H => proj1 H) ks x) as (bs & rs & _ & F & E' & G).
  - intros k b I P. destruct (fround_valid k b (W k I) P) as (r' & A & V). exists r'. split; [exact A|]. split; [exact V|]. exact (fround_idem k b r' (W k I) P A).
  - exact B.
  - rewrite E' in E. cbn [bind] in E. destruct ks as [|k0 ks0]; [discriminate|]. injection E as <-.
    assert (K : fround_from (k0 :: ks0) 0 (concat rs) = Ok rs).
    { clear - F G. revert rs G. induction F as [|k b ks bs P F IH]; intros rs G; inversion G; subst; [reflexivity|]. cbn [fst snd concat] in *.
      match goal with H : fvalid _ _ /\ _ |- _ => destruct H as [V S] end.
      rewrite fround_from_cons by (now apply fvalid_width). rewrite S. cbn [bind]. rewrite IH by assumption. reflexivity. }
    rewrite K. reflexivity.
Qed.
Print Assumptions C119_idempotent.
(** A point of the design space keeps all its values; without discrete variables (where -0.0 may become 0.0) it keeps every bit.  So a row of an
    initial design is evaluated as drawn. *)
Theorem C119_fixes : forall ks x, ks <> [] -> Forall fwell ks -> fblocks fvalid ks x ->
  exists r, round_optimum_f ks x = Ok r /\ map val r = map val x /\ ((forall dom, ~ In (FDisc dom) ks) -> r = x).
Proof.
  intros ks x ND W B. rewrite Forall_forall in W. unfold round_optimum_f.
  destruct (rows_by fvalid (fun k b r => map val r = map val b /\ match k with FDisc _ => True | _ => r = b end) fvalid_width ks x) as (bs & rs & EX & F & E & G).
  - intros k b I P. destruct (fround_val k b (W k I) P) as (r & A & _ & V & S). eauto.
  - exact B.
  - rewrite E. cbn [bind]. destruct ks as [|k0 ks0]; [congruence|]. eexists. split; [reflexivity|]. subst x. clear - F G.
    revert rs G. induction F as [|k b ks bs P F IH]; intros rs G; inversion G; subst; [auto|]. cbn [fst snd concat] in *.
    match goal with H : map val _ = _ /\ _ |- _ => destruct H as [V S] end. match goal with H : Forall2 _ _ _ |- _ => destruct (IH _ H) as [I1 I2] end.
    split; [rewrite !map_app; congruence|]. intros N. rewrite I2 by (intros dom I; apply (N dom); now right). f_equal.
    destruct k; try exact S. exfalso. apply (N dom). now left.
Qed.
Print Assumptions C119_fixes.
(** It is the rounding of the exact model (C03, C04) whenever the numbers are doubles and so are the differences to the values of discrete variables. *)
Theorem C119_exact : forall ds cs sp ks x q, design_space ds cs = Ok sp -> ks <> [] -> Forall2 kind_for ks (kinds sp) -> Forall fwell ks ->
  fblocks exact_block ks x -> row_for x q ->
  exists r rq, round_optimum_f ks x = Ok r /\ round_optimum sp [q] = Ok [rq] /\ row_for r rq.
Proof.
  intros ds cs sp ks x q D ND K W B R. pose proof (sf_ok _ (design_space_facts _ _ _ D)) as OK.
  assert (F : Forall2 (fun k v => kind_for k (x_kind v) /\ x_mdim v = fwidth k) ks (sp_xvars sp)).
  { unfold kinds in K. clear - K OK. revert ks K. induction OK as [|v vs O OK IH]; intros ks K; inversion K as [|k ? ks' ? KV K' E1 E2]; subst; [constructor|]. constructor; [|now apply IH].
    split; [exact KV|]. unfold xv_ok in O. rewrite O. destruct k, (x_kind v); cbn in KV; try contradiction; cbn; auto. }
  destruct (from_for ks (sp_xvars sp) F W x B 0%nat [] q eq_refl R) as (rs & rq & A1 & A2 & A3).
  exists (concat rs), (concat rq). unfold round_optimum_f, round_optimum. rewrite A1. cbn [bind app] in *. split; [|split].
  - destruct ks; [congruence|reflexivity].
  - unfold vec in *. rewrite A2. cbn [bind]. unfold concat_rounded. rewrite all_R1_map. destruct rq as [|q0 rq]; [|reflexivity].
    exfalso. inversion A3; subst. apply fround_from_length in A1. destruct ks; [congruence|discriminate A1].
  - now apply row_concat.
Qed.
Print Assumptions C119_exact.
(** Not in general: 2^60 is nearer to 1 than to 0, but the two distances are the same double. *)
Theorem C119_exact_refuted : exists x q, row_for x q /\ Forall2 kind_for [FDisc [of_Z 0; of_Z 1]] [KDisc [q0; q1]] /\
  round_optimum_f [FDisc [of_Z 0; of_Z 1]] x = Ok [of_Z 0] /\ forall v sp, x_kind v = KDisc [q0; q1] -> x_mdim v = 1%nat -> sp_xvars sp = [v] ->
  round_optimum sp [q] = Ok [[q1]].
Proof.
  exists [lit 1 60], [Q2Qc (Z.pow 2 60 # 1)].
  assert (O : stands_for (of_Z 1) q1). { destruct one_val as [A B]. split; [exact A|]. rewrite B. unfold q1. change (1 = Q2R (1 # 1)). unfold Q2R. cbn. lra. }
  split; [|split; [|split]].
  - constructor; [|constructor]. destruct (lit_ok 1 60 ltac:(lia) ltac:(lia)) as [A B]. split; [exact A|]. rewrite B.
    change (1 * IZR (Z.pow_pos 2 60) = Q2R (1152921504606846976 # 1)). unfold Q2R. cbn. lra.
  - constructor; [|constructor]. constructor; [exact zero_for|]. constructor; [exact O|constructor].
  - vm_compute. reflexivity.
  - intros v sp K M E. unfold round_optimum. rewrite E. cbn [round_from]. unfold var_round. rewrite K, M. vm_compute. reflexivity.
Qed.
Print Assumptions C119_exact_refuted.
(** NaN stays NaN in a continuous coordinate, so the premise on it is needed. *)
Theorem C119_nan_refuted : forall lo hi, exists r, round_optimum_f [FCont lo hi] [B754_nan] = Ok r /\ ~ fblocks fvalid [FCont lo hi] r.
Proof.
  intros lo hi. exists [B754_nan]. split; [unfold round_optimum_f, round_continuous; destruct lo, hi; reflexivity|]. intros H.
  assert (G : forall ks r, fblocks fvalid ks r -> ks = [FCont lo hi] -> forall x t, r = x :: t -> number x).
  { intros ks r K EK x t ER. destruct K as [|k ks b r V T]; [discriminate|]. injection EK as -> ->. destruct V as (y & -> & F & _). cbn [app] in ER. injection ER as <- _. exact F. }
  discriminate (G _ _ H eq_refl _ _ eq_refl).
Qed.
Print Assumptions C119_nan_refuted.

(** A continuous, a discrete and a categorical variable; an infinite, an out-of-range and three undecided coordinates. *)
Example C119_nonvacuous : let ks := [FCont (of_Z 0) (of_Z 1); FDisc [of_Z 2; of_Z 5]; FCat 3] in
  let x := [B754_infinity false; of_Z 4; of_Z 0; of_Z 7; of_Z 7] in
  Forall fwell ks /\ fblocks freadable ks x /\ round_optimum_f ks x = Ok [of_Z 1; of_Z 5; of_Z 0; of_Z 1; of_Z 0] /\
  fblocks exact_block [FDisc [of_Z 2; of_Z 5]] [of_Z 4].
Proof.
  cbv zeta. assert (N : forall n, (Z.abs n <= 2 ^ 53)%Z -> number (of_Z n)) by (intros n H; apply of_Z_ok; exact H). split; [|split; [|split]].
  - repeat constructor; try (apply N; lia); try lia; try discriminate.
    + cbn [fst snd]. rewrite (proj2 zero_val), (proj2 one_val). lra.
    + intros v [<-|[<-|[]]]; apply N; lia.
  - apply (fblocks_cons _ (FCont (of_Z 0) (of_Z 1)) _ [B754_infinity false]); [split; [reflexivity|intros y [<-|[]]; reflexivity]|].
    apply (fblocks_cons _ (FDisc _) _ [of_Z 4]); [split; [reflexivity|exact I]|]. apply (fblocks_cons _ (FCat 3) [] [of_Z 0; of_Z 7; of_Z 7]); [split; [reflexivity|exact I]|constructor].
  - assert (E1 : fround (FCont (of_Z 0) (of_Z 1)) [B754_infinity false] = Ok [of_Z 1]).
    { cbn [fround get nth_error bind]. unfold round_continuous.
      replace (flt (B754_infinity false) (of_Z 0)) with false by (vm_compute; reflexivity). replace (flt (of_Z 1) (B754_infinity false)) with true by (vm_compute; reflexivity). reflexivity. }
    assert (E2 : fround (FDisc [of_Z 2; of_Z 5]) [of_Z 4] = Ok [of_Z 5]).
    { cbn [fround get nth_error bind]. unfold round_discrete. cbn [fold_left].
      replace (flt (fabs (fsub (of_Z 2) (of_Z 4))) (fabs (fsub (of_Z 2) (of_Z 4)))) with false by (vm_compute; reflexivity).
      replace (flt (fabs (fsub (of_Z 5) (of_Z 4))) (fabs (fsub (of_Z 2) (of_Z 4)))) with true by (vm_compute; reflexivity). reflexivity. }
    assert (E3 : fround (FCat 3) [of_Z 0; of_Z 7; of_Z 7] = Ok [of_Z 0; of_Z 1; of_Z 0]).
    { cbn [fround]. unfold round_categorical. replace (argmax_f [of_Z 0; of_Z 7; of_Z 7]) with (Ok 1%nat) by (vm_compute; reflexivity). reflexivity. }
    assert (T : forall k1 k2 x1 x2 c1 c2 c3 r1 r2 r3, fwidth k1 = 1%nat -> fwidth k2 = 1%nat -> fround k1 [x1] = Ok r1 -> fround k2 [x2] = Ok r2 -> fround (FCat 3) [c1; c2; c3] = Ok r3 ->
      round_optimum_f [k1; k2; FCat 3] [x1; x2; c1; c2; c3] = Ok (r1 ++ r2 ++ r3 ++ [])).
    { clear. intros k1 k2 x1 x2 c1 c2 c3 r1 r2 r3 W1 W2 E1 E2 E3. unfold round_optimum_f. cbn [fround_from]. rewrite W1, W2. unfold slice. cbn [Nat.add fwidth firstn skipn].
      rewrite E1. cbn [bind]. rewrite E2. cbn [bind]. rewrite E3. reflexivity. }
    exact (T (FCont _ _) (FDisc _) _ _ _ _ _ _ _ _ eq_refl eq_refl E1 E2 E3).
  - apply (fblocks_cons _ (FDisc _) [] [of_Z 4]); [|constructor]. split; [reflexivity|]. split; [intros y [<-|[]]; apply N; lia|].
    assert (G : forall a b, (Z.abs a <= 2 ^ 20)%Z -> (Z.abs b <= 2 ^ 20)%Z -> number (fsub (of_Z a) (of_Z b)) /\ val (fsub (of_Z a) (of_Z b)) = val (of_Z a) - val (of_Z b)).
    { intros a b Ha Hb. destruct (of_Z_ok a) as [A1 A2]; [lia|]. destruct (of_Z_ok b) as [B1 B2]; [lia|].
      assert (E : rnd (val (of_Z a) - val (of_Z b)) = IZR (a - b)). { rewrite A2, B2, <- minus_IZR. apply rnd_F. apply F64_IZR. lia. }
      destruct (fsub_ok (of_Z a) (of_Z b) A1 B1) as [C1 C2].
      - rewrite E. destruct (of_Z_ok (a - b)) as [_ D]; [lia|]. rewrite <- D. apply val_lt.
      - split; [exact C1|]. rewrite C2, E, A2, B2, minus_IZR. reflexivity. }
    intros v y [<-|[<-|[]]] [<-|[]]; apply G; lia.
Qed.
