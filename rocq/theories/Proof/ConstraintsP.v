From Coq Require Import List ZArith QArith Qcanon Bool Lia.
From Verif.Model Require Import Py Space Ieee Constraints.
From Verif.Spec Require Import ConstraintsSpec.
From Verif.Proof Require Import Num.
Import ListNotations.
Local Open Scope nat_scope.

Lemma pairs_one_l {A B} (a : A) (lb : list B) : pairs [a] lb = Ok (map (fun b => (a, b)) lb).
Proof. unfold pairs. destruct lb as [|b [|c l]]; reflexivity. Qed.
Lemma pairs_one_r {A B} (la : list A) (b : B) : pairs la [b] = Ok (map (fun a => (a, b)) la).
Proof. unfold pairs. destruct la as [|a [|c l]]; reflexivity. Qed.
Lemma pairs_same {A B} (la : list A) (lb : list B) : length la = length lb -> pairs la lb = Ok (combine la lb).
Proof. intros H. unfold pairs. apply Nat.eqb_eq in H. now rewrite H. Qed.
Lemma common_same w : common w w = Ok w. Proof. unfold common. now rewrite Nat.eqb_refl. Qed.
Lemma common_1_l w : common 1 w = Ok w. Proof. unfold common. destruct (Nat.eqb 1 w) eqn:E; [apply Nat.eqb_eq in E; now subst|reflexivity]. Qed.
Lemma common_1_r w : common w 1 = Ok w. Proof. unfold common. destruct (Nat.eqb w 1) eqn:E; reflexivity. Qed.
Lemma mapM_pure {A B} (f : A -> res B) (h : A -> B) l : (forall a, In a l -> f a = Ok (h a)) -> mapM f l = Ok (map h l).
Proof.
  induction l as [|a l IH]; intros H; [reflexivity|]. cbn [mapM map]. rewrite (H a (or_introl eq_refl)). cbn [bind].
  rewrite IH by (intros b Hb; apply H; now right). reflexivity.
Qed.

Section G.
Variable g : num -> num -> num.
Lemma py_vec u l : apply2 g (APy u) (AVec l) = Ok (AVec (map (g u) l)).
Proof. cbn [apply2 as2 rank Nat.max]. rewrite common_1_l. cbn [bind]. rewrite pairs_one_l. cbn [bind map mapM fst snd]. rewrite pairs_one_l. cbn [bind]. now rewrite map_map. Qed.
Lemma vec_py l u : apply2 g (AVec l) (APy u) = Ok (AVec (map (fun v => g v u) l)).
Proof. cbn [apply2 as2 rank Nat.max]. rewrite common_1_r. cbn [bind]. rewrite pairs_one_l. cbn [bind map mapM fst snd]. rewrite pairs_one_r. cbn [bind]. now rewrite map_map. Qed.
Lemma vec_vec l l' : length l = length l' -> apply2 g (AVec l) (AVec l') = Ok (AVec (map (fun p => g (fst p) (snd p)) (combine l l'))).
Proof. intros H. cbn [apply2 as2 rank Nat.max]. rewrite H, common_same. cbn [bind]. rewrite pairs_one_l. cbn [bind map mapM fst snd]. now rewrite pairs_same. Qed.
Lemma py_mat u w m : apply2 g (APy u) (AMat w m) = Ok (AMat w (map (map (g u)) m)).
Proof.
  cbn [apply2 as2 rank Nat.max]. rewrite common_1_l. cbn [bind]. rewrite pairs_one_l. cbn [bind].
  rewrite (mapM_pure _ (fun r => map (g u) (snd r))).
  - cbn [bind]. now rewrite map_map.
  - intros r Hr. apply in_map_iff in Hr as (b & <- & _). cbn [fst snd]. rewrite pairs_one_l. cbn [bind]. now rewrite map_map.
Qed.
Lemma mat_py w m u : apply2 g (AMat w m) (APy u) = Ok (AMat w (map (map (fun v => g v u)) m)).
Proof.
  cbn [apply2 as2 rank Nat.max]. rewrite common_1_r. cbn [bind]. rewrite pairs_one_r. cbn [bind].
  rewrite (mapM_pure _ (fun r => map (fun v => g v u) (fst r))).
  - cbn [bind]. now rewrite map_map.
  - intros r Hr. apply in_map_iff in Hr as (b & <- & _). cbn [fst snd]. rewrite pairs_one_r. cbn [bind]. now rewrite map_map.
Qed.
Lemma mat_mat w m m' : length m = length m' -> (forall r, In r (combine m m') -> length (fst r) = length (snd r)) ->
  apply2 g (AMat w m) (AMat w m') = Ok (AMat w (map (fun r => map (fun p => g (fst p) (snd p)) (combine (fst r) (snd r))) (combine m m'))).
Proof.
  intros H K. cbn [apply2 as2 rank Nat.max]. rewrite common_same. cbn [bind]. rewrite pairs_same by exact H. cbn [bind].
  rewrite (mapM_pure _ (fun r => map (fun p => g (fst p) (snd p)) (combine (fst r) (snd r)))); [reflexivity|].
  intros r Hr. rewrite pairs_same by (now apply K). reflexivity.
Qed.
End G.

Definition the_each (h : here) : list num := match h with One v => [v] | Each l => l end.
Definition shown (k : kind) (w : nat) (x : mat) (e : cexpr) (a : arr) : Prop :=
  match k with
  | Constant => exists v, a = APy v /\ forall row, value_at row e = One v
  | PerLocation => a = AVec (map (fun row => the_one (value_at row e)) x) /\ forall row, length row = w -> exists v, value_at row e = One v
  | PerCoordinate => a = AMat w (map (fun row => the_each (value_at row e)) x) /\ forall row, length row = w -> exists l, value_at row e = Each l /\ length l = w
  end.
Lemma combine_map2 {A B C} (f : A -> B) (h : A -> C) l : combine (map f l) (map h l) = map (fun a => (f a, h a)) l.
Proof. induction l as [|a l IH]; [reflexivity|]. cbn. now rewrite IH. Qed.
Lemma py_index_ok w i : (- Z.of_nat w <= i < Z.of_nat w)%Z ->
  py_index w i = Some (Z.to_nat (if (i <? 0)%Z then i + Z.of_nat w else i)%Z) /\ Z.to_nat (if (i <? 0)%Z then i + Z.of_nat w else i)%Z < w.
Proof.
  intros H. unfold py_index. destruct (Z.leb_spec 0 i) as [P|P].
  - destruct (Z.ltb_spec i (Z.of_nat w)); [|lia]. destruct (Z.ltb_spec i 0); [lia|]. split; [reflexivity|lia].
  - destruct (Z.leb_spec (- Z.of_nat w) i); [|lia]. destruct (Z.ltb_spec i 0); [|lia]. split; [reflexivity|lia].
Qed.

Theorem ceval_shown w x : Forall (fun row => length row = w) x -> forall e k, kind_of e = Some k -> columns_exist w e ->
  exists a, ceval w x e = Ok a /\ shown k w x e a.
Proof.
  intros W. induction e as [v| |i|i|i j|g a IH|g a IHa b IHb|g a IH]; intros k K C; cbn [kind_of] in K.
  - injection K as <-. exists (APy v). split; [reflexivity|]. exists v. split; [reflexivity|]. reflexivity.
  - injection K as <-. eexists. split; [reflexivity|]. split; [reflexivity|]. intros row L. eexists. split; [reflexivity|]. rewrite map_length. exact L.
  - injection K as <-. cbn [columns_exist] in C. destruct (py_index_ok w i C) as [P Q]. cbn [ceval]. rewrite P.
    rewrite (mapM_pure _ (fun row => nth (Z.to_nat (if (i <? 0)%Z then (i + Z.of_nat (length row))%Z else i)) row 0%Qc)).
    + cbn [bind]. eexists. split; [reflexivity|]. split; [rewrite map_map; reflexivity|]. intros row L. eexists. reflexivity.
    + intros row I. rewrite Forall_forall in W. rewrite (W row I). unfold get. rewrite (nth_error_nth' row 0%Qc) by (rewrite (W row I); exact Q). reflexivity.
  - discriminate.
  - discriminate.
  - cbn [columns_exist] in C. destruct (IH k K C) as (r & E & S). cbn [ceval]. rewrite E. cbn [bind]. eexists. split; [reflexivity|].
    destruct k; cbn [shown] in S |- *.
    + destruct S as (v & -> & V). exists (g v). split; [reflexivity|]. intros row. cbn [value_at]. now rewrite V.
    + destruct S as (-> & V). cbn [apply1]. split.
      * rewrite map_map. f_equal. apply map_ext_in. intros row I. rewrite Forall_forall in W. destruct (V row (W row I)) as (v & Q). cbn [value_at]. rewrite Q. reflexivity.
      * intros row L. destruct (V row L) as (v & Q). exists (g v). cbn [value_at]. now rewrite Q.
    + destruct S as (-> & V). cbn [apply1]. split.
      * rewrite map_map. f_equal. apply map_ext_in. intros row I. rewrite Forall_forall in W. destruct (V row (W row I)) as (l & Q & _). cbn [value_at]. rewrite Q. reflexivity.
      * intros row L. destruct (V row L) as (l & Q & N). exists (map g l). cbn [value_at]. rewrite Q, map_length. split; [reflexivity|exact N].
  - cbn [columns_exist] in C. destruct C as [Ca Cb].
    destruct (kind_of a) as [ka|] eqn:Ka; [|destruct (kind_of b) as [[]|]; discriminate]. destruct (kind_of b) as [kb|] eqn:Kb; [|destruct ka; discriminate].
    destruct (IHa ka eq_refl Ca) as (ra & Ea & Sa). destruct (IHb kb eq_refl Cb) as (rb & Eb & Sb). cbn [ceval]. rewrite Ea, Eb. cbn [bind].
    rewrite Forall_forall in W.
    destruct ka, kb; cbn in K; try discriminate K; injection K as <-; cbn [shown] in Sa, Sb |- *.
    + destruct Sa as (u & -> & Va), Sb as (v & -> & Vb). eexists. split; [reflexivity|]. exists (g u v). split; [reflexivity|]. intros row. cbn [value_at]. now rewrite Va, Vb.
    + destruct Sa as (u & -> & Va), Sb as (-> & Vb). rewrite py_vec. eexists. split; [reflexivity|]. split.
      * rewrite map_map. f_equal. apply map_ext_in. intros row I. destruct (Vb row (W row I)) as (v & Q). cbn [value_at]. rewrite Va, Q. reflexivity.
      * intros row L. destruct (Vb row L) as (v & Q). exists (g u v). cbn [value_at]. now rewrite Va, Q.
    + destruct Sa as (u & -> & Va), Sb as (-> & Vb). rewrite py_mat. eexists. split; [reflexivity|]. split.
      * rewrite map_map. f_equal. apply map_ext_in. intros row I. destruct (Vb row (W row I)) as (v & Q & _). cbn [value_at]. rewrite Va, Q. reflexivity.
      * intros row L. destruct (Vb row L) as (l & Q & N). exists (map (g u) l). cbn [value_at]. rewrite Va, Q, map_length. now split.
    + destruct Sa as (-> & Va), Sb as (v & -> & Vb). rewrite vec_py. eexists. split; [reflexivity|]. split.
      * rewrite map_map. f_equal. apply map_ext_in. intros row I. destruct (Va row (W row I)) as (u & Q). cbn [value_at]. rewrite Vb, Q. reflexivity.
      * intros row L. destruct (Va row L) as (u & Q). exists (g u v). cbn [value_at]. now rewrite Vb, Q.
    + destruct Sa as (-> & Va), Sb as (-> & Vb). rewrite vec_vec by (now rewrite !map_length). eexists. split; [reflexivity|]. split.
      * rewrite combine_map2, map_map. f_equal. apply map_ext_in. intros row I. destruct (Va row (W row I)) as (u & Q), (Vb row (W row I)) as (v & Q'). cbn [value_at fst snd]. rewrite Q, Q'. reflexivity.
      * intros row L. destruct (Va row L) as (u & Q), (Vb row L) as (v & Q'). exists (g u v). cbn [value_at]. now rewrite Q, Q'.
    + destruct Sa as (-> & Va), Sb as (v & -> & Vb). rewrite mat_py. eexists. split; [reflexivity|]. split.
      * rewrite map_map. f_equal. apply map_ext_in. intros row I. destruct (Va row (W row I)) as (u & Q & _). cbn [value_at]. rewrite Vb, Q. reflexivity.
      * intros row L. destruct (Va row L) as (l & Q & N). eexists. cbn [value_at]. rewrite Vb, Q. split; [reflexivity|]. now rewrite map_length.
    + destruct Sa as (-> & Va), Sb as (-> & Vb). rewrite mat_mat.
      * eexists. split; [reflexivity|]. split.
        -- rewrite combine_map2, map_map. f_equal. apply map_ext_in. intros row I.
           destruct (Va row (W row I)) as (u & Q & _), (Vb row (W row I)) as (v & Q' & _). cbn [value_at fst snd]. rewrite Q, Q'. reflexivity.
        -- intros row L. destruct (Va row L) as (u & Q & N), (Vb row L) as (v & Q' & N'). eexists. cbn [value_at]. rewrite Q, Q'. split; [reflexivity|].
           rewrite map_length, combine_length. lia.
      * now rewrite !map_length.
      * intros r Hr. rewrite combine_map2 in Hr. apply in_map_iff in Hr as (row & <- & I).
        destruct (Va row (W row I)) as (u & Q & N), (Vb row (W row I)) as (v & Q' & N'). cbn [fst snd]. rewrite Q, Q'. cbn [the_each]. congruence.
  - cbn [columns_exist] in C. destruct (kind_of a) as [[]|] eqn:Ka; try discriminate. injection K as <-.
    destruct (IH PerCoordinate eq_refl C) as (r & E & S). cbn [ceval]. rewrite E. cbn [bind]. destruct S as (-> & V). eexists. split; [reflexivity|].
    cbn [shown]. split.
    + rewrite map_map. f_equal. apply map_ext_in. intros row I. rewrite Forall_forall in W. destruct (V row (W row I)) as (l & Q & _). cbn [value_at]. rewrite Q. reflexivity.
    + intros row L. destruct (V row L) as (l & Q & _). eexists. cbn [value_at]. rewrite Q. reflexivity.
Qed.

Lemma le0_holds row e : le0 (the_one (value_at row e)) = true <-> holds_at row e.
Proof.
  unfold holds_at, le0. destruct (the_one (value_at row e)) as [| | |v]; cbn; try (split; [discriminate|contradiction]); [now split|].
  rewrite negb_true_iff. rewrite qclt_false. reflexivity.
Qed.
Lemma le0_fun row e f : c_constraint (as_function e) = Some f -> exists v, f row = Ok v /\ qcle v q0 = le0 (the_one (value_at row e)).
Proof.
  intros H. injection H as <-. cbv beta. unfold le0.
  destruct (the_one (value_at row e)) as [| | |v]; cbn; eexists; (split; [reflexivity|]); try reflexivity.
  unfold qclt. now rewrite negb_involutive.
Qed.
Definition good (w : nat) (e : cexpr) : Prop := (kind_of e = Some PerLocation \/ (kind_of e = Some PerCoordinate /\ w = 1)) /\ columns_exist w e.
Lemma concat_single {A B} (f : A -> list B) (h : A -> B) l : (forall a, In a l -> f a = [h a]) -> concat (map f l) = map h l.
Proof. induction l as [|a l IH]; intros H; [reflexivity|]. cbn. rewrite (H a (or_introl eq_refl)), IH by (intros b I; apply H; now right). reflexivity. Qed.
Theorem indicator_good w x e : Forall (fun row => length row = w) x -> good w e ->
  indicator w x e = Ok (map (fun row => if le0 (the_one (value_at row e)) then q1 else q0) x).
Proof.
  intros W [[K|[K ->]] C]; destruct (ceval_shown _ x W e _ K C) as (a & E & S); unfold indicator; rewrite E; cbn [bind shown] in S |- *.
  - destruct S as (-> & _). rewrite map_length, Nat.eqb_refl, map_map. reflexivity.
  - destruct S as (-> & V). rewrite Forall_forall in W. rewrite (concat_single _ (fun row => the_one (value_at row e))).
    + rewrite map_length, Nat.eqb_refl, map_map. reflexivity.
    + intros row I. destruct (V row (W row I)) as (l & -> & N). cbn. destruct l as [|v [|]]; try discriminate. reflexivity.
Qed.
Theorem indicators_good w x es : Forall (fun row => length row = w) x -> Forall (good w) es -> forall I, length I = length x ->
  indicators w x es I = indicator_loop (map as_function es) x I.
Proof.
  intros W. induction 1 as [|e es G Gs IH]; intros I L; [reflexivity|]. cbn [indicators map indicator_loop].
  rewrite (indicator_good w x e W G). cbn [bind as_function c_constraint].
  rewrite (mapM_pure _ (fun row => match the_one (value_at row e) with NaN | PInf => 1%Qc | NInf => (- (1))%Qc | Fin v => v end)) by reflexivity.
  cbn [bind]. rewrite IH.
  - f_equal. clear - L. revert x L. induction I as [|i I IH]; intros [|row x] L; try discriminate; [reflexivity|]. cbn [map combine fst snd].
    f_equal; [|apply IH; now injection L]. f_equal.
    destruct (le0_fun row e _ eq_refl) as (v & E & Q). injection E as <-. now rewrite Q.
  - rewrite map_length, combine_length, map_length, L. apply Nat.min_id.
Qed.
Lemma atleast_2d_ne x : x <> [] -> atleast_2d x = x. Proof. destruct x; [congruence|reflexivity]. Qed.

Theorem indicator_refuses w x e : Forall (fun row => length row = w) x -> columns_exist w e ->
  (kind_of e = Some Constant -> indicator w x e = Raise AttributeError) /\
  (kind_of e = Some PerCoordinate -> w <> 1 -> x <> [] -> indicator w x e = Raise ValueError).
Proof.
  intros W C. split; [intros K|intros K N X]; destruct (ceval_shown _ x W e _ K C) as (a & E & S); unfold indicator; rewrite E; cbn [bind shown] in S |- *.
  - destruct S as (v & -> & _). reflexivity.
  - destruct S as (-> & V). rewrite Forall_forall in W.
    assert (L : length (concat (map (fun row => the_each (value_at row e)) x)) = length x * w).
    { clear X E. induction x as [|row x IH]; [reflexivity|]. cbn [map concat length]. rewrite app_length, IH by (intros r I; apply W; now right).
      destruct (V row (W row (or_introl eq_refl))) as (l & -> & M). cbn [the_each]. rewrite M. lia. }
    match goal with |- (if ?b then _ else _) = _ => destruct b eqn:Q end; [|reflexivity].
    exfalso. apply Nat.eqb_eq in Q. pose proof (eq_trans (eq_sym L) Q) as M. destruct x as [|r x]; [congruence|]. unfold vec in M. cbn [length] in M. nia.
Qed.
Lemma missing_column w x i : ~ (- Z.of_nat w <= i < Z.of_nat w)%Z -> forall e, e = ECol i -> indicator w x e = Raise IndexError.
Proof.
  intros H e ->. unfold indicator. cbn [ceval]. unfold py_index.
  destruct (Z.leb_spec 0 i); [destruct (Z.ltb_spec i (Z.of_nat w)); [lia|reflexivity]|destruct (Z.leb_spec (- Z.of_nat w) i); [lia|reflexivity]].
Qed.
Lemma no_axis w x g a : Forall (fun row => length row = w) x -> columns_exist w a -> kind_of a = Some Constant \/ kind_of a = Some PerLocation ->
  indicator w x (ERed g a) = Raise ValueError.
Proof.
  intros W C K. unfold indicator. cbn [ceval].
  destruct K as [K|K]; destruct (ceval_shown w x W a _ K C) as (r & E & S); rewrite E; cbn [bind shown] in S |- *; [destruct S as (v & -> & _)|destruct S as (-> & _)]; reflexivity.
Qed.
Lemma pick_none {A} (l : list A) i : ~ (- Z.of_nat (length l) <= i < Z.of_nat (length l))%Z -> pick l i = Raise IndexError.
Proof.
  intros H. unfold pick, py_index.
  destruct (Z.leb_spec 0 i); [destruct (Z.ltb_spec i (Z.of_nat (length l))); [lia|reflexivity]|destruct (Z.leb_spec (- Z.of_nat (length l)) i); [lia|reflexivity]].
Qed.
Lemma pick_some {A} (l : list A) i d : (- Z.of_nat (length l) <= i < Z.of_nat (length l))%Z ->
  pick l i = Ok (nth (Z.to_nat (if (i <? 0)%Z then i + Z.of_nat (length l) else i)%Z) l d).
Proof. intros H. destruct (py_index_ok _ _ H) as [P Q]. unfold pick. rewrite P. unfold get. now rewrite (nth_error_nth' l d Q). Qed.
Lemma missing_row w x i : ~ (- Z.of_nat (length x) <= i < Z.of_nat (length x))%Z -> indicator w x (ERow i) = Raise IndexError /\ forall j, indicator w x (EAt i j) = Raise IndexError.
Proof. intros H. unfold indicator. cbn [ceval]. rewrite (pick_none x i H). split; [reflexivity|]. intros j. reflexivity. Qed.
Lemma single_row w x i : Forall (fun row => length row = w) x -> (- Z.of_nat (length x) <= i < Z.of_nat (length x))%Z ->
  indicator w x (ERow i) = if Nat.eqb w (length x) then Ok (map (fun v => if qcle v q0 then q1 else q0) (nth (Z.to_nat (if (i <? 0)%Z then i + Z.of_nat (length x) else i)%Z) x [])) else Raise ValueError.
Proof.
  intros W H. unfold indicator. cbn [ceval]. pose proof (pick_some x i [] H) as P. unfold vec in P |- *. rewrite P. cbn [bind]. set (row := nth _ x _) in *.
  assert (L : length row = w). { destruct (py_index_ok _ _ H) as [_ Q]. rewrite Forall_forall in W. apply W. unfold row. now apply nth_In. }
  rewrite map_length, L. destruct (Nat.eqb w (length x)); [|reflexivity]. rewrite map_map. f_equal. apply map_ext. intros v. unfold le0. cbn. unfold qclt. now rewrite negb_involutive.
Qed.
