(** Lemmas about evaluating the objective and the steps of the optimization loop. *)
From Coq Require Import String List ZArith QArith Qcanon Bool Lia.
From Verif.Model Require Import Py Space Design Optim Objective BO.
From Verif.Spec Require Import BOSpec.
From Verif.Proof Require Import Num.
Import ListNotations.
Local Open Scope nat_scope.

(** ---------------------------------------------------------------- evaluating rows *)
Lemma answers_nil f h : answers f h [] [].
Proof. split; [reflexivity|]. intros [|i] x H; discriminate. Qed.
Lemma answers_cons f h x y rows ys : f h x = Ok y -> answers f (h ++ [x]) rows ys -> answers f h (x :: rows) (y :: ys).
Proof.
  intros F [L A]. split; [simpl; now rewrite L|].
  intros [|i] a H; simpl in H.
  - injection H as <-. exists y. split; [reflexivity|]. simpl. now rewrite app_nil_r.
  - destruct (A i a H) as (b & Hb & Fb). exists b. split; [exact Hb|].
    simpl. now rewrite <- app_assoc in Fb.
Qed.
Lemma answers_app f h r1 y1 r2 y2 : answers f h r1 y1 -> answers f (h ++ r1) r2 y2 -> answers f h (r1 ++ r2) (y1 ++ y2).
Proof.
  revert h y1; induction r1 as [|x r1 IH]; intros h y1 A B.
  - destruct A as [L _]. destruct y1; [|discriminate]. rewrite app_nil_r in B. exact B.
  - destruct A as [L A]. destruct y1 as [|y y1]; [discriminate|]. simpl.
    destruct (A 0 x eq_refl) as (b & Hb & Fb). simpl in Hb, Fb. injection Hb as <-. rewrite app_nil_r in Fb.
    apply answers_cons; [exact Fb|]. apply IH.
    + split; [simpl in L; lia|]. intros i a H. destruct (A (S i) a H) as (c & Hc & Fc). exists c. split; [exact Hc|].
      rewrite <- app_assoc. exact Fc.
    + rewrite <- app_assoc. exact B.
Qed.

(** The outcome of a sequential evaluation: it stops at the first exception; the calls are the rows in order. *)
Lemma eval_rows_spec f clock : forall rows h t h' t' r, eval_rows f clock h t rows = (h', t', r) ->
  match r with
  | Ok l => h' = h ++ rows /\ answers f h rows (map fst l) /\ t' = t + 2 * length rows /\
            map snd l = map (fun i => (clock (S (t + 2 * i)) - clock (t + 2 * i)%nat)%Qc) (seq 0 (length rows))
  | Raise e => exists pre x post ys, rows = pre ++ x :: post /\ h' = h ++ pre ++ [x] /\ answers f h pre ys /\
                 f (h ++ pre) x = Raise e
  end.
Proof.
  induction rows as [|x rows IH]; intros h t h' t' r E; cbn [eval_rows] in E.
  - injection E as <- <- <-. rewrite app_nil_r. cbn. repeat split; try lia. apply answers_nil.
  - destruct (f h x) as [y|e] eqn:F.
    + destruct (eval_rows f clock (h ++ [x]) (S (S t)) rows) as [[h1 t1] [l|e]] eqn:R;
        injection E as <- <- <-; apply IH in R.
      * destruct R as (Hh & A & T & D). rewrite Hh, <- app_assoc. split; [reflexivity|]. split; [|split].
        -- simpl. apply answers_cons; assumption.
        -- simpl. lia.
        -- cbn [map snd]. cbn [length]. rewrite <- cons_seq. cbn [map]. f_equal.
           ++ rewrite Nat.mul_0_r, Nat.add_0_r. reflexivity.
           ++ rewrite D, <- seq_shift, map_map. apply map_ext. intros i. replace (S (S t) + 2 * i) with (t + 2 * S i) by lia. reflexivity.
      * destruct R as (pre & a & post & ys & -> & -> & A & Fa).
        exists (x :: pre), a, post, (y :: ys). split; [reflexivity|]. split; [now rewrite <- !app_assoc|].
        split; [now apply answers_cons|]. rewrite <- app_assoc in Fa. exact Fa.
    + injection E as <- <- <-. exists [], x, rows, []. rewrite app_nil_r. repeat split; auto; try (apply answers_nil).
Qed.

Lemma eval_func_ok f clock h t rows h' t' ys cs : eval_func f clock h t rows = (h', t', Ok (ys, cs)) ->
  h' = h ++ rows /\ answers f h rows ys /\ t' = t + 2 * length rows /\
  cs = CList (map (fun i => (clock (S (t + 2 * i)) - clock (t + 2 * i)%nat)%Qc) (seq 0 (length rows))).
Proof.
  unfold eval_func. destruct (eval_rows f clock h t rows) as [[h1 t1] [l|e]] eqn:R; intros E; [|discriminate].
  injection E as <- <- <- <-. apply eval_rows_spec in R. destruct R as (A & B & C & D). rewrite D. auto.
Qed.
Lemma eval_func_raise f clock h t rows h' t' e : eval_func f clock h t rows = (h', t', Raise e) ->
  exists pre x post ys, rows = pre ++ x :: post /\ h' = h ++ pre ++ [x] /\ answers f h pre ys /\ f (h ++ pre) x = Raise e.
Proof.
  unfold eval_func. destruct (eval_rows f clock h t rows) as [[h1 t1] [l|e']] eqn:R; intros E; [discriminate|].
  injection E as <- <- <-. apply eval_rows_spec in R. exact R.
Qed.

Lemma answers_values f h rows ys : stateless f -> answers f h rows ys -> values_at f rows ys.
Proof.
  intros S. revert h ys. induction rows as [|x rows IH]; intros h ys [L A].
  - destruct ys; [constructor|discriminate].
  - destruct ys as [|y ys]; [discriminate|]. constructor.
    + intros h0. destruct (A 0 x eq_refl) as (b & Hb & Fb). injection Hb as <-. rewrite (S h0 (h ++ firstn 0 (x :: rows))). exact Fb.
    + apply (IH (h ++ [x])). split; [simpl in L; lia|]. intros i a H. destruct (A (Datatypes.S i) a H) as (c & Hc & Fc).
      exists c. split; [exact Hc|]. rewrite <- app_assoc. exact Fc.
Qed.

(** ---------------------------------------------------------------- strides *)
Lemma nth_nil {A} k : nth_error (@nil A) k = None. Proof. now destruct k. Qed.
Lemma stride_nth {A} n : 1 <= n -> forall (l : list A) skip k, nth_error (stride n skip l) k = nth_error l (skip + k * n).
Proof.
  intros N. induction l as [|a l IH]; intros skip k; cbn [stride].
  - destruct k; destruct (skip + _); reflexivity.
  - destruct skip as [|skip]; cbn [plus nth_error].
    + destruct k as [|k]; [reflexivity|]. cbn [nth_error]. rewrite IH.
      replace (S k * n) with (S (n - 1 + k * n)) by (simpl; lia). reflexivity.
    + apply IH.
Qed.
Lemma put_stride_length {A} n : forall (d s : list A) skip, length (put_stride n skip d s) = length d.
Proof. induction d as [|a d IH]; intros s skip; [reflexivity|]. destruct skip; [destruct s|]; simpl; now rewrite IH. Qed.
Lemma put_stride_nth {A} n : 1 <= n -> forall (d s : list A) skip i,
  nth_error (put_stride n skip d s) i =
    match nth_error d i with
    | None => None
    | Some a => if (Nat.leb skip i) && (Nat.eqb ((i - skip) mod n) 0)
                then match nth_error s ((i - skip) / n) with Some b => Some b | None => Some a end
                else Some a
    end.
Proof.
  intros N. induction d as [|a d IH]; intros s skip i; cbn [put_stride].
  - now destruct i.
  - destruct skip as [|k].
    + destruct i as [|i].
      * replace ((0 - 0) mod n) with 0 by (rewrite Nat.mod_0_l; lia). replace ((0 - 0) / n) with 0 by (rewrite Nat.div_0_l; lia).
        cbn. destruct s; reflexivity.
      * assert (G : forall s' : list A, nth_error (put_stride n (n - 1) d s') i =
                   match nth_error d i with
                   | None => None
                   | Some a => if (Nat.leb 0 (S i)) && (Nat.eqb ((S i - 0) mod n) 0)
                      then match nth_error s' ((S i - 0) / n - 1) with Some b => Some b | None => Some a end
                      else Some a
                   end).
        { intros s'. rewrite IH. destruct (nth_error d i); [|reflexivity]. rewrite Nat.sub_0_r. cbn [Nat.leb andb].
          destruct (Nat.leb_spec (n - 1) i) as [L|L]; cbn [andb].
          - replace (S i) with ((i - (n - 1)) + 1 * n) by lia. rewrite Nat.mod_add by lia.
            rewrite Nat.div_add by lia. rewrite Nat.add_sub. reflexivity.
          - rewrite Nat.mod_small by lia. reflexivity. }
        destruct s as [|b s]; cbn [nth_error]; rewrite G; destruct (nth_error d i); auto.
        -- now rewrite !nth_nil.
        -- rewrite Nat.sub_0_r. cbn [Nat.leb andb]. destruct (Nat.eqb_spec (S i mod n) 0) as [Z|Z]; [|reflexivity].
           assert (1 <= S i / n).
           { apply Nat.div_exact in Z; [|lia]. destruct (S i / n); [lia|lia]. }
           destruct (S i / n) as [|q]; [lia|]. cbn [nth_error]. now rewrite Nat.sub_succ, Nat.sub_0_r.
    + destruct i as [|i]; cbn [nth_error]; [reflexivity|]. rewrite IH. reflexivity.
Qed.

Lemma collect_length n : forall msgs i Y, length (collect n i Y msgs) = length Y.
Proof. induction msgs as [|m t IH]; intros i Y; simpl; [reflexivity|]. now rewrite IH, put_stride_length. Qed.

(** Writing back the strides [i0], ... restores the positions of these residues. *)
Lemma collect_nth n (L : vec) : 1 <= n -> forall msgs i0 Y,
  i0 + length msgs <= n -> length Y = length L ->
  (forall j m, nth_error msgs j = Some m -> m = stride n (i0 + j) L) ->
  forall k, nth_error (collect n i0 Y msgs) k =
    (if (Nat.leb i0 (k mod n)) && (Nat.ltb (k mod n) (i0 + length msgs)) then nth_error L k else nth_error Y k).
Proof.
  intros N. induction msgs as [|m t IH]; intros i0 Y B LY S k; cbn [collect length].
  - destruct (Nat.leb_spec i0 (k mod n)), (Nat.ltb_spec (k mod n) (i0 + 0)); cbn; auto; lia.
  - rewrite IH; [|simpl in B; lia|now rewrite put_stride_length|].
    2:{ intros j m' H. rewrite (S (Datatypes.S j) m' H). f_equal. lia. }
    rewrite (S 0 m eq_refl), Nat.add_0_r.
    destruct (Nat.leb_spec (Datatypes.S i0) (k mod n)) as [H1|H1];
      destruct (Nat.leb_spec i0 (k mod n)) as [H2|H2];
      destruct (Nat.ltb_spec (k mod n) (Datatypes.S i0 + length t)) as [H3|H3];
      destruct (Nat.ltb_spec (k mod n) (i0 + Datatypes.S (length t))) as [H4|H4]; cbn [andb]; try lia; try reflexivity;
      rewrite put_stride_nth by exact N.
    + (* not in the stride of i0: too large *)
      destruct (nth_error Y k) eqn:EY; [|reflexivity].
      destruct (Nat.leb_spec i0 k) as [K|K]; cbn [andb]; [|reflexivity].
      destruct (Nat.eqb_spec ((k - i0) mod n) 0) as [Z|Z]; [|reflexivity]. exfalso.
      assert (k = i0 + n * ((k - i0) / n)) by (apply Nat.div_exact in Z; lia).
      assert (k mod n = i0) by (rewrite H, Nat.add_comm, Nat.mul_comm, Nat.add_comm, Nat.mod_add by lia; apply Nat.mod_small; simpl in B; lia). lia.
    + assert (R : k mod n = i0) by lia.
      assert (K : k = i0 + n * (k / n)) by (pose proof (Nat.div_mod k n); lia).
      destruct (nth_error Y k) eqn:EY.
      * destruct (Nat.leb_spec i0 k); [|lia]. cbn [andb].
        assert (Q : k - i0 = k / n * n) by lia.
        rewrite Q, Nat.mod_mul, Nat.div_mul by lia. cbn. rewrite stride_nth by exact N.
        replace (i0 + k / n * n) with k by lia.
        assert (K2 : k < length L) by (rewrite <- LY; apply nth_error_Some; congruence).
        apply nth_error_Some in K2. destruct (nth_error L k); congruence.
      * symmetry. apply nth_error_None. apply nth_error_None in EY. lia.
    + destruct (nth_error Y k) eqn:EY; [|reflexivity].
      destruct (Nat.leb_spec i0 k) as [K|K]; cbn [andb]; [|reflexivity].
      destruct (Nat.eqb_spec ((k - i0) mod n) 0) as [Z|Z]; [|reflexivity]. exfalso.
      assert (k = i0 + n * ((k - i0) / n)) by (apply Nat.div_exact in Z; lia).
      assert (k mod n = i0) by (rewrite H, Nat.add_comm, Nat.mul_comm, Nat.add_comm, Nat.mod_add by lia; apply Nat.mod_small; simpl in B; lia). lia.
Qed.

(** Splitting into strides and writing them back gives the original. *)
Lemma collect_strides n (L Y : vec) : 1 <= n -> length Y = length L ->
  collect n 0 Y (map (fun i => stride n i L) (seq 0 n)) = L.
Proof.
  intros N LY. apply nth_error_ext. intros k. rewrite (collect_nth n L N).
  - rewrite map_length, seq_length. cbn [Nat.leb andb plus].
    destruct (Nat.ltb_spec (k mod n) n) as [H|H]; [reflexivity|]. pose proof (Nat.mod_upper_bound k n). lia.
  - rewrite map_length, seq_length. lia.
  - exact LY.
  - intros j m H. rewrite nth_error_map in H. destruct (nth_error (seq 0 n) j) as [i|] eqn:E; [|discriminate].
    injection H as <-. assert (J : j < n) by (rewrite <- (seq_length n 0); apply nth_error_Some; congruence).
    rewrite (nth_error_nth' _ 0) in E by (rewrite seq_length; exact J). injection E as <-. now rewrite seq_nth.
Qed.

Lemma stride_map {A B} (g : A -> B) n : forall l skip, stride n skip (map g l) = map g (stride n skip l).
Proof. induction l as [|a l IH]; intros [|k]; simpl; auto. now rewrite IH. Qed.
Lemma stride_In {A} n : forall (l : list A) skip x, In x (stride n skip l) -> In x l.
Proof. induction l as [|a l IH]; intros [|k] x H; simpl in *; auto. destruct H; eauto. right. eauto. Qed.
Lemma stride_cover {A} n (l : list A) x : 1 <= n -> In x l -> exists i, i < n /\ In x (stride n i l).
Proof.
  intros N H. apply In_nth_error in H. destruct H as [k H]. exists (k mod n). split; [apply Nat.mod_upper_bound; lia|].
  apply (nth_error_In _ (k / n)). rewrite stride_nth by exact N. rewrite <- H. f_equal.
  pose proof (Nat.div_mod k n). lia.
Qed.

(** ---------------------------------------------------------------- evaluate *)
Lemma values_at_split f rows ys : values_at f rows ys -> forall h x, In x rows -> exists y, f h x = Ok y.
Proof. intros V h x I. apply In_nth_error in I. destruct I as [i I]. revert i I. induction V; intros [|i] I; try discriminate.
  - injection I as ->. eauto. - simpl in I. eauto. Qed.

Lemma child_values f clock h t rows : stateless f ->
  match child f clock h t rows with
  | Ok ys => values_at f rows ys
  | Raise e => exists x, In x rows /\ forall h0, f h0 x = Raise e
  end.
Proof.
  intros S. unfold child. destruct (eval_rows f clock h t rows) as [[h1 t1] [l|e]] eqn:R; apply eval_rows_spec in R.
  - destruct R as (_ & A & _). eapply answers_values; eauto.
  - destruct R as (pre & x & post & ys & -> & _ & _ & F). exists x. split; [apply in_or_app; right; now left|].
    intros h0. rewrite (S h0 (h ++ pre)). exact F.
Qed.

Lemma values_at_fun f (g : vec -> Qc) rows ys : values_at f rows ys -> (forall h x, In x rows -> f h x = Ok (g x)) -> ys = map g rows.
Proof.
  intros V. induction V as [|x y rows ys H V IH]; intros G; [reflexivity|]. simpl. f_equal.
  - specialize (H []). rewrite (G [] x (or_introl eq_refl)) in H. congruence.
  - apply IH. intros h a I. apply G. now right.
Qed.

(** For an objective that does not depend on earlier calls, every number of processes >= 1 gives the values at the rows
    in the original order. *)
Lemma parallel_values o clock h t x ys cs : stateless (o_fun o) -> 1 <= o_procs o ->
  parallel_evaluation o clock h t x = Some (Ok (ys, cs)) -> values_at (o_fun o) x ys /\ cs = CMat (map (fun _ => [q1]) x).
Proof.
  intros S N. unfold parallel_evaluation.
  destruct (negb (o_fork o) && (0 <? o_procs o)); [discriminate|].
  destruct (mapM _ _) as [msgs|e] eqn:M; [|discriminate]. intros E. injection E as <- <-. split; [|reflexivity].
  set (g := fun v => match o_fun o [] v with Ok y => y | Raise _ => q0 end).
  assert (A : forall v, In v x -> forall h0, o_fun o h0 v = Ok (g v)).
  { intros v I h0. destruct (stride_cover (o_procs o) x v N I) as (i & Hi & Hv).
    apply mapM_ok_Forall2 in M. unfold divided_samples in M.
    assert (K : In (stride (o_procs o) i x) (map (fun i => stride (o_procs o) i x) (seq 0 (o_procs o)))) by (apply in_map_iff; exists i; split; auto; apply in_seq; lia).
    apply In_nth_error in K. destruct K as [k K].
    assert (exists m, child (o_fun o) clock h t (stride (o_procs o) i x) = Ok m) as (m & Hm).
    { clear -M K. revert k K. induction M; intros [|k] K; try discriminate; simpl in K; eauto. injection K as ->. eauto. }
    pose proof (child_values (o_fun o) clock h t (stride (o_procs o) i x) S) as C. rewrite Hm in C.
    destruct (values_at_split _ _ _ C [] v Hv) as (y & Hy). unfold g. rewrite Hy, (S h0 []). exact Hy. }
  assert (MS : msgs = map (fun i => stride (o_procs o) i (map g x)) (seq 0 (o_procs o))).
  { apply mapM_ok_Forall2 in M. unfold divided_samples in M. clear -M A S.
    revert M. generalize (seq 0 (o_procs o)). intros l. revert msgs. induction l as [|i l IH]; intros msgs M; inversion M; subst; [reflexivity|].
    simpl. f_equal; [|auto]. rewrite stride_map.
    pose proof (child_values (o_fun o) clock h t (stride (o_procs o) i x) S) as C.
    match goal with H : child _ _ _ _ _ = Ok _ |- _ => rewrite H in C end.
    apply (values_at_fun _ g _ _ C). intros h1 v I. apply A. eapply stride_In; eauto. }
  rewrite MS, (collect_strides (o_procs o) (map g x)); [|exact N|now rewrite repeat_length, map_length].
  clear -A. unfold values_at. induction x as [|a x IH]; simpl; constructor; [intros h0; apply A; now left|].
  apply IH. intros v I. apply A. now right.
Qed.

Lemma evaluate_values o clock h t x h' t' ys cs : stateless (o_fun o) -> 1 <= o_procs o ->
  evaluate o clock h t x = (h', t', Some (Ok (ys, cs))) -> values_at (o_fun o) x ys.
Proof.
  intros S N. unfold evaluate. destruct (Nat.eqb_spec (o_procs o) 1) as [P|P].
  - destruct (eval_func (o_fun o) clock h t x) as [[h1 t1] r] eqn:F. intros E. injection E as <- <- ->.
    apply eval_func_ok in F. eapply answers_values; [exact S|apply F].
  - destruct (parallel_evaluation o clock h t x) as [[[ys1 cs1]|e]|] eqn:F.
    + intros E. injection E as <- <- <- <-. eapply parallel_values; eauto.
    + destruct (eval_func (o_fun o) clock h t x) as [[h1 t1] r] eqn:G. intros E. injection E as <- <- ->.
      apply eval_func_ok in G. eapply answers_values; [exact S|apply G].
    + discriminate.
Qed.
Lemma evaluate_seq o clock h t x : o_procs o = 1 ->
  evaluate o clock h t x = match eval_func (o_fun o) clock h t x with (h', t', r) => (h', t', Some r) end.
Proof. intros P. unfold evaluate. now rewrite P. Qed.
Lemma evaluate_seq_ok o clock h t x h' t' ys cs : o_procs o = 1 ->
  evaluate o clock h t x = (h', t', Some (Ok (ys, cs))) -> h' = h ++ x /\ answers (o_fun o) h x ys.
Proof.
  intros P. rewrite evaluate_seq by exact P. destruct (eval_func _ _ _ _ _) as [[h1 t1] r] eqn:F. intros E.
  injection E as <- <- ->. apply eval_func_ok in F. tauto.
Qed.
Lemma evaluate_seq_raise o clock h t x h' t' e : o_procs o = 1 ->
  evaluate o clock h t x = (h', t', Some (Raise e)) ->
  exists pre a post ys, x = pre ++ a :: post /\ h' = h ++ pre ++ [a] /\ answers (o_fun o) h pre ys /\ o_fun o (h ++ pre) a = Raise e.
Proof.
  intros P. rewrite evaluate_seq by exact P. destruct (eval_func _ _ _ _ _) as [[h1 t1] r] eqn:F. intros E.
  injection E as <- <- ->. apply eval_func_raise in F. exact F.
Qed.
(** However it ends, the result has one value per row (also for zero processes). *)
Lemma parallel_length o clock h t x ys cs : parallel_evaluation o clock h t x = Some (Ok (ys, cs)) -> length ys = length x.
Proof.
  unfold parallel_evaluation. destruct (_ && _); [discriminate|]. destruct (mapM _ _); [|discriminate].
  intros E. injection E as <- <-. now rewrite collect_length, repeat_length.
Qed.
Lemma evaluate_length o clock h t x h' t' ys cs : evaluate o clock h t x = (h', t', Some (Ok (ys, cs))) -> length ys = length x.
Proof.
  unfold evaluate. destruct (Nat.eqb (o_procs o) 1).
  - destruct (eval_func _ _ _ _ _) as [[h1 t1] r] eqn:F. intros E. injection E as <- <- ->. apply eval_func_ok in F. apply F.
  - destruct (parallel_evaluation o clock h t x) as [[[ys1 cs1]|e]|] eqn:F.
    + intros E. injection E as <- <- <- <-. eapply parallel_length; eauto.
    + destruct (eval_func _ _ _ _ _) as [[h1 t1] r] eqn:G. intros E. injection E as <- <- ->. apply eval_func_ok in G. apply G.
    + discriminate.
Qed.
Lemma evaluate_extends o clock h t x h' t' r : evaluate o clock h t x = (h', t', r) -> exists l, h' = h ++ l.
Proof.
  unfold evaluate.
  assert (G : forall h1 t1 r1, eval_func (o_fun o) clock h t x = (h1, t1, r1) -> exists l, h1 = h ++ l).
  { intros h1 t1 [[ys cs]|e] F; [apply eval_func_ok in F; destruct F as [-> _]; eauto|].
    apply eval_func_raise in F. destruct F as (pre & a & post & ys & _ & -> & _). eauto. }
  destruct (Nat.eqb (o_procs o) 1).
  - destruct (eval_func _ _ _ _ _) as [[h1 t1] r1] eqn:F. intros E. injection E as <- <- <-. eauto.
  - destruct (parallel_evaluation o clock h t x) as [[[ys1 cs1]|e]|] eqn:F.
    + intros E. injection E as <- <- <-. exists []. now rewrite app_nil_r.
    + destruct (eval_func _ _ _ _ _) as [[h1 t1] r1] eqn:F'. intros E. injection E as <- <- <-. eauto.
    + intros E. injection E as <- <- <-. exists []. now rewrite app_nil_r.
Qed.
