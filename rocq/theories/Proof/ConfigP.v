From Coq Require Import String List ZArith Bool Lia.
From Verif.Model Require Import Py Space Call Config.
From Verif.Spec Require Import ConfigSpec.
Import ListNotations.
Local Open Scope nat_scope.

Section A.
Context {A : Type}.
Lemma dget_dset_same k (v : A) d : dget k (dset k v d) = Some v.
Proof. induction d as [|[k' v'] d IH]; simpl; [now rewrite String.eqb_refl|]. destruct (String.eqb k k') eqn:E; simpl; rewrite E; auto. Qed.
Lemma dget_dset_other k k' (v : A) d : k <> k' -> dget k (dset k' v d) = dget k d.
Proof.
  intros N. induction d as [|[k1 v1] d IH]; simpl.
  - apply String.eqb_neq in N. now rewrite N.
  - destruct (String.eqb k' k1) eqn:E; simpl.
    + apply String.eqb_eq in E. subst. destruct (String.eqb k k1) eqn:E2; auto. apply String.eqb_eq in E2. congruence.
    + now rewrite IH.
Qed.
Lemma dget_In k (v : A) d : dget k d = Some v -> In (k, v) d.
Proof. induction d as [|[k1 v1] d IH]; simpl; [discriminate|]. destruct (String.eqb k k1) eqn:E; [apply String.eqb_eq in E; intros [= ->]; subst; auto|auto]. Qed.
Lemma dget_None k (d : list (string * A)) : ~ In k (map fst d) -> dget k d = None.
Proof. induction d as [|[k1 v1] d IH]; simpl; auto. intros N. destruct (String.eqb k k1) eqn:E; [apply String.eqb_eq in E; subst; tauto|apply IH; tauto]. Qed.
End A.

(** One key of the new configuration. *)
Definition put1 (k : string) (v : json) (d : list (string * json)) : res (list (string * json)) :=
  match is_dict v, dget k d with
  | true, Some dv => dv' <- update_config v dv ;; Ok (dset k dv' d)
  | _, _ => Ok (dset k v d)
  end.
Fixpoint puts (items : list (string * json)) (d : list (string * json)) : res (list (string * json)) :=
  match items with [] => Ok d | (k, v) :: r => d1 <- put1 k v d ;; puts r d1 end.
Lemma update_puts items d : update_config (JDict items) (JDict d) = (d1 <- puts items d ;; Ok (JDict d1)).
Proof.
  cbn [update_config]. destruct (existsb (fun kv => is_dict (snd kv)) items) eqn:E.
  - clear E. revert d. induction items as [|[k v] r IH]; intros d; [reflexivity|]. cbn [puts]. unfold put1.
    destruct (is_dict v) eqn:D; [destruct (dget k d) as [dv|] eqn:G|]; cbn [bind]; try apply IH.
    destruct (update_config v dv); cbn [bind]; [apply IH|reflexivity].
  - revert d. induction items as [|[k v] r IH]; intros d; [reflexivity|]. simpl in E. apply orb_false_iff in E. destruct E as [E1 E2].
    cbn [puts fold_left fst snd]. unfold put1. rewrite E1. cbn [bind]. apply IH, E2.
Qed.
Lemma update_leaf items c : is_dict c = false -> update_config (JDict items) c = Raise TypeError \/ update_config (JDict items) c = Raise AttributeError.
Proof. intros D. cbn [update_config]. destruct (existsb _ items); destruct c; try discriminate; auto. Qed.
Lemma update_new_leaf v c : is_dict v = false -> update_config v c = Raise AttributeError.
Proof. destruct v; try discriminate; reflexivity. Qed.

(** The value of one key after the update. *)
Definition merged1 (new def : option json) : option json :=
  match new with
  | None => def
  | Some v => if is_dict v then match def with Some dv => match update_config v dv with Ok x => Some x | Raise _ => None end | None => Some v end else Some v
  end.
Lemma put1_other k v d d1 k' : put1 k v d = Ok d1 -> k' <> k -> dget k' d1 = dget k' d.
Proof.
  unfold put1. intros H N.
  destruct (is_dict v); [destruct (dget k d) as [dv|]; [destruct (update_config v dv); simpl in H|]|]; try discriminate; injection H as <-; now apply dget_dset_other.
Qed.
Lemma put1_same k v d d1 : put1 k v d = Ok d1 -> dget k d1 = merged1 (Some v) (dget k d).
Proof.
  unfold put1, merged1. intros H.
  destruct (is_dict v); [destruct (dget k d) as [dv|]; [destruct (update_config v dv); simpl in H|]|]; try discriminate; injection H as <-; now rewrite dget_dset_same.
Qed.
Lemma puts_other items : forall d d1 k, puts items d = Ok d1 -> ~ In k (map fst items) -> dget k d1 = dget k d.
Proof.
  induction items as [|[k0 v] r IH]; intros d d1 k H N; simpl in *; [now injection H as <-|].
  destruct (put1 k0 v d) as [d2|e] eqn:P; [|discriminate]. simpl in H. rewrite (IH d2 d1 k H) by tauto. apply (put1_other _ _ _ _ _ P). intuition congruence.
Qed.
Lemma puts_spec items : forall d d1, NoDup (map fst items) -> puts items d = Ok d1 -> forall k, dget k d1 = merged1 (dget k items) (dget k d).
Proof.
  induction items as [|[k0 v] r IH]; intros d d1 ND H k; simpl in *; [now injection H as <-|].
  destruct (put1 k0 v d) as [d2|e] eqn:P; [|discriminate]. simpl in H. inversion ND as [|? ? N1 N2]; subst.
  destruct (String.eqb k k0) eqn:E.
  - apply String.eqb_eq in E. subst k0. rewrite (puts_other r d2 d1 k H N1). apply (put1_same _ _ _ _ P).
  - apply String.eqb_neq in E. rewrite (IH d2 d1 N2 H k). f_equal. now apply (put1_other _ _ _ _ _ P).
Qed.
Lemma update_key items def r : proper (JDict items) -> update_config (JDict items) def = Ok r ->
  exists d0 d1, def = JDict d0 /\ r = JDict d1 /\ forall k, dget k d1 = merged1 (dget k items) (dget k d0).
Proof.
  intros P H. destruct (is_dict def) eqn:D.
  - destruct def as [d0|?|?|?|?|]; try discriminate. rewrite update_puts in H. destruct (puts items d0) as [d1|e] eqn:PE; [|discriminate]. simpl in H. injection H as <-.
    exists d0, d1. repeat split; auto. apply puts_spec; auto. inversion P; subst; auto. discriminate.
  - destruct (update_leaf items def D) as [X|X]; congruence.
Qed.
Lemma proper_sub items k v : proper (JDict items) -> dget k items = Some v -> proper v.
Proof. intros P G. inversion P as [? ? H|? H]; subst; [|discriminate]. eapply H, dget_In, G. Qed.

Lemma find_leaf v k p : is_dict v = false -> find v (k :: p) = None.
Proof. destruct v; try discriminate; reflexivity. Qed.

Theorem update_paths : forall p new def r, proper new -> update_config new def = Ok r ->
  (forall v, find new p = Some v -> is_dict v = false -> find r p = Some v) /\
  (dict_at new p -> dict_at r p) /\
  (find new p = None -> (exists q s, p = q ++ s /\ leaf_at new q) -> find r p = None) /\
  (find new p = None -> (forall q s, p = q ++ s -> ~ leaf_at new q) -> find r p = find def p).
Proof.
  induction p as [|k p IH]; intros new def r P H.
  - assert (exists items, new = JDict items) as [items ->].
    { destruct new; eauto; rewrite update_new_leaf in H by reflexivity; discriminate. }
    destruct (update_key items def r P H) as (d0 & d1 & -> & -> & K). repeat split.
    + intros v [= <-]. discriminate.
    + intros _. exists d1. reflexivity.
    + discriminate.
    + discriminate.
  - assert (exists items, new = JDict items) as [items ->].
    { destruct new; eauto; rewrite update_new_leaf in H by reflexivity; discriminate. }
    destruct (update_key items def r P H) as (d0 & d1 & -> & -> & K). specialize (K k).
    unfold dict_at. cbn [find]. rewrite K. destruct (dget k items) as [v|] eqn:G; cbn [merged1].
    + pose proof (proper_sub _ _ _ P G) as PV. destruct (is_dict v) eqn:D.
      * destruct (dget k d0) as [dv|] eqn:G0.
        -- destruct (update_config v dv) as [x|e] eqn:U.
           ++ destruct (IH v dv x PV U) as (A1 & A2 & A3 & A4). repeat split; auto.
              ** intros N [q [s [E L]]]. apply A3; auto. destruct q as [|k' q].
                 { simpl in E. destruct L as (w & Hw & Lw). simpl in Hw. injection Hw as <-. discriminate. }
                 simpl in E. injection E as <- ->. exists q, s. split; auto. destruct L as (w & Hw & Lw). exists w. cbn [find] in Hw. rewrite G in Hw. auto.
              ** intros N NL. apply A4; auto. intros q s -> L. apply (NL (k :: q) s eq_refl). destruct L as (w & Hw & Lw). exists w. cbn [find]. rewrite G. auto.
           ++ exfalso. rewrite update_puts in H. destruct (puts items d0) as [dd|] eqn:PE; [|discriminate].
              pose proof (puts_spec items d0 dd) as S0. inversion P as [? ND _|]; subst; [|discriminate]. 
              clear - G G0 U D PE ND. revert d0 G0 PE. induction items as [|[k0 v0] r IHi]; intros d0 G0 PE; [discriminate|]. simpl in *.
              destruct (put1 k0 v0 d0) as [d2|] eqn:P1; [|discriminate]. simpl in PE. inversion ND; subst. destruct (String.eqb k k0) eqn:E.
              ** injection G as ->. apply String.eqb_eq in E. subst. unfold put1 in P1. rewrite D, G0, U in P1. discriminate.
              ** apply String.eqb_neq in E. apply (IHi G H2 d2); auto. rewrite (put1_other _ _ _ _ _ P1 E). exact G0.
        -- repeat split; auto.
      * repeat split; auto. intros N NL. exfalso. apply (NL [k] p eq_refl). exists v. cbn [find]. rewrite G. auto.
    + repeat split; try discriminate; auto.
      * intros [d Hd]. discriminate.
      * intros _ [q [s [E L]]]. destruct L as (w & Hw & Lw). destruct q as [|k' q]; simpl in *.
        -- injection Hw as <-. discriminate.
        -- injection E as <- ->. rewrite G in Hw. discriminate.
Qed.

(** Induction over the dictionaries of a configuration. *)
Fixpoint json_size (v : json) : nat := match v with JDict l => S (fold_right (fun kv n => json_size (snd kv) + n) 0 l) | _ => 0 end.
Lemma json_size_In k v l : In (k, v) l -> json_size v < json_size (JDict l).
Proof.
  induction l as [|[k1 v1] l IH]; [intros []|]. intros [[= -> ->]|I]; cbn -[Nat.add] in *; [lia|]. specialize (IH I). lia.
Qed.
Lemma puts_ok items : forall d, NoDup (map fst items) ->
  (exists d1, puts items d = Ok d1) <-> (forall k v dv, dget k items = Some v -> is_dict v = true -> dget k d = Some dv -> exists x, update_config v dv = Ok x).
Proof.
  induction items as [|[k0 v0] r IH]; intros d ND; simpl.
  - split; [discriminate|intros _; eauto].
  - inversion ND as [|? ? N1 N2]; subst. split.
    + intros [d1 H] k v dv G D G0. destruct (put1 k0 v0 d) as [d2|] eqn:P; [|discriminate]. simpl in H. destruct (String.eqb k k0) eqn:E.
      * apply String.eqb_eq in E. subst. injection G as ->. unfold put1 in P. rewrite D, G0 in P. destruct (update_config v dv); eauto. discriminate.
      * apply String.eqb_neq in E. apply (proj1 (IH d2 N2)) with (k := k); eauto. now rewrite (put1_other _ _ _ _ _ P E).
    + intros H. destruct (put1 k0 v0 d) as [d2|e] eqn:P; simpl.
      * apply (IH d2 N2). intros k v dv G D G0. destruct (String.eqb k k0) eqn:E.
        -- apply String.eqb_eq in E. subst. exfalso. apply N1. apply dget_In in G. apply in_map_iff. now exists (k0, v).
        -- apply (H k v dv); rewrite ?E; auto. apply String.eqb_neq in E. now rewrite <- (put1_other _ _ _ _ _ P E).
      * exfalso. unfold put1 in P. destruct (is_dict v0) eqn:D; [|discriminate]. destruct (dget k0 d) as [dv|] eqn:G0; [|discriminate].
        destruct (H k0 v0 dv) as [x X]; rewrite ?String.eqb_refl; auto. rewrite X in P. discriminate.
Qed.
Theorem update_ok_iff : forall n new def, json_size new < n -> proper new ->
  ((exists r, update_config new def = Ok r) <-> dict_at new [] /\ forall p, dict_at new p -> ~ leaf_at def p).
Proof.
  induction n as [|n IH]; intros new def L P; [lia|]. destruct (is_dict new) eqn:D.
  2:{ rewrite update_new_leaf by exact D. split; [intros [r H]; discriminate|]. intros [[d Hd] _]. simpl in Hd. injection Hd as ->. discriminate. }
  destruct new as [items|?|?|?|?|]; try discriminate. destruct (is_dict def) eqn:DD.
  2:{ split.
      - intros [r H]. destruct (update_leaf items def DD) as [X|X]; congruence.
      - intros [_ H]. exfalso. apply (H []); [now exists items|now exists def]. }
  destruct def as [d0|?|?|?|?|]; try discriminate. rewrite update_puts.
  assert (ND : NoDup (map fst items)) by (inversion P; [auto|discriminate]).
  transitivity (exists d1, puts items d0 = Ok d1).
  { destruct (puts items d0); simpl; split; intros [x X]; try discriminate; eauto. }
  rewrite (puts_ok items d0 ND). split.
  - intros H. split; [now exists items|]. intros [|k p] Dp Lp.
    + destruct Lp as (v & [= <-] & X). discriminate.
    + destruct Dp as [dd Hd]. destruct Lp as (v & Hv & Lv). cbn [find] in Hd, Hv. destruct (dget k items) as [w|] eqn:G; [|discriminate].
      destruct (dget k d0) as [dv|] eqn:G0; [|discriminate].
      assert (Dw : is_dict w = true) by (destruct p; [simpl in Hd; injection Hd as ->; reflexivity|destruct w; try discriminate; reflexivity]).
      destruct (proj1 (IH w dv ltac:(pose proof (json_size_In _ _ _ (dget_In _ _ _ G)); lia) (proper_sub _ _ _ P G)) (H k w dv G Dw G0)) as [_ X].
      apply (X p); [now exists dd|now exists v].
  - intros [_ H] k v dv G Dv G0. apply (IH v dv); [pose proof (json_size_In _ _ _ (dget_In _ _ _ G)); lia|exact (proper_sub _ _ _ P G)|]. split.
    + destruct v as [dd|?|?|?|?|]; try discriminate. now exists dd.
    + intros p [dd Hd] (w & Hw & Lw). apply (H (k :: p)); [exists dd|exists w]; cbn [find]; rewrite ?G, ?G0; auto.
Qed.
Lemma update_raises : forall n new def e, json_size new < n -> update_config new def = Raise e -> e = AttributeError \/ e = TypeError.
Proof.
  induction n as [|n IH]; intros new def e L H; [lia|]. destruct (is_dict new) eqn:D; [|rewrite update_new_leaf in H by exact D; left; congruence].
  destruct new as [items|?|?|?|?|]; try discriminate. destruct (is_dict def) eqn:DD; [|destruct (update_leaf items def DD) as [X|X]; rewrite X in H; [right|left]; congruence].
  destruct def as [d0|?|?|?|?|]; try discriminate. rewrite update_puts in H.
  assert (S0 : forall k v, In (k, v) items -> json_size v < n) by (intros k v I; pose proof (json_size_In _ _ _ I); lia).
  clear D DD L. revert d0 H. induction items as [|[k v] r IHr]; intros d0 H; [discriminate|]. cbn [puts] in H.
  destruct (put1 k v d0) as [d2|e'] eqn:P; cbn [bind] in H.
  - apply (IHr (fun k v I => S0 k v (or_intror I)) d2 H).
  - injection H as ->. unfold put1 in P. destruct (is_dict v); [|discriminate]. destruct (dget k d0) as [dv|]; [|discriminate].
    destruct (update_config v dv) as [x|e1] eqn:U; [discriminate|]. cbn [bind] in P. injection P as ->. apply (IH v dv); auto. apply (S0 k). now left.
Qed.
(** Is there a value that is not a dictionary on the way? *)
Lemma exists_leaf_dec : forall c p, (exists q s, p = q ++ s /\ leaf_at c q) \/ (forall q s, p = q ++ s -> ~ leaf_at c q).
Proof.
  intros c p. revert c. induction p as [|k p IH]; intros c.
  - destruct (is_dict c) eqn:D.
    + right. intros [|k0 q0] s E; [|discriminate]. intros (v & [= <-] & L). congruence.
    + left. exists [], []. split; auto. now exists c.
  - destruct (is_dict c) eqn:D.
    2:{ left. exists [], (k :: p). split; auto. now exists c. }
    destruct c as [d|?|?|?|?|]; try discriminate. destruct (dget k d) as [v|] eqn:G.
    + destruct (IH v) as [(q & s & -> & w & Hw & L)|N].
      * left. exists (k :: q), s. split; auto. exists w. cbn [find]. rewrite G. auto.
      * right. intros [|k' q] s E (w & Hw & L); [injection Hw as <-; discriminate|]. injection E as <- ->. cbn [find] in Hw. rewrite G in Hw.
        apply (N q s eq_refl). now exists w.
    + right. intros [|k' q] s E (w & Hw & L); [injection Hw as <-; discriminate|]. injection E as <- ->. cbn [find] in Hw. rewrite G in Hw. discriminate.
Qed.
Ltac prove_proper := first [apply proper_leaf; reflexivity
  | apply proper_dict; [simpl; repeat constructor; simpl; intuition discriminate
      | let k := fresh in let v := fresh in let I := fresh in intros k v I; simpl in I; repeat (destruct I as [I|I]; [injection I as <- <-; prove_proper|]); contradiction]].
