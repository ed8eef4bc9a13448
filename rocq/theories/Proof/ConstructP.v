(** Lemmas about the Design_space constructor, find_variable and indicator_constraints. *)
From Coq Require Import String List ZArith QArith Qcanon Bool Lia.
From Verif.Model Require Import Py Space.
From Verif.Spec Require Import SpaceSpec.
From Verif.Proof Require Import Num SpaceP.
Import ListNotations.
Local Open Scope nat_scope.

Definition bad1 (d : descr) : Prop := d_domain d = None \/ ~ In (descr_type d) known_types \/ ragged d.

Definition var_of (i : nat) (d : descr) (v : variable) : Prop :=
  v_name v = descr_name i d /\ denotes d (v_kind v) /\
  (is_bandit (v_kind v) = false -> v_dim v = descr_dim d) /\
  (is_bandit (v_kind v) = true <-> is_bandit_descr d).

Lemma create_spec i d dom : shape_ok d -> d_domain d = Some dom ->
  (exists v, create_variable (descr_name i d) (descr_type d) dom (d_dim d) = Ok v /\ var_of i d v /\ ~ bad1 d) \/
  (create_variable (descr_name i d) (descr_type d) dom (d_dim d) = Raise InvalidConfigError /\ bad1 d).
Proof.
  intros S D. specialize (S dom D). destruct S as (S1 & S2 & S3 & S4). unfold create_variable.
  destruct (String.eqb_spec (descr_type d) "continuous") as [T|T].
  { destruct (S1 T) as (lo & hi & ->). left. eexists; split; [reflexivity|]. unfold var_of; simpl. rewrite T.
    unfold is_bandit_descr; rewrite T. repeat split; auto; try discriminate.
    intros [B|[B|(B & _)]]; try congruence. rewrite T in B; apply B; simpl; auto. }
  destruct (String.eqb_spec (descr_type d) "bandit") as [T'|T'].
  { destruct (S4 T') as (isarr & a & arms & ->).
    destruct (forallb (fun r => Nat.eqb (length r) (length a)) arms) eqn:F.
    - left. eexists; split; [reflexivity|]. unfold var_of; simpl. unfold is_bandit_descr. repeat split; auto; try discriminate.
      intros [B|[B|(_ & i' & arms' & x & y & D' & Hx & Hy & N)]]; try congruence.
      + rewrite T' in B; apply B; simpl; auto.
      + rewrite D in D'. injection D' as <- <-. rewrite forallb_forall in F.
        assert (G : forall x, In x (a :: arms) -> length x = length a).
        { intros z [<-|Hz]; auto. apply Nat.eqb_eq. apply F; auto. }
        apply N. rewrite (G x), (G y); auto.
    - right. split; auto. right; right. split; auto.
      assert (exists r, In r arms /\ length r <> length a) as (r & Hr & N).
      { clear -F. induction arms; simpl in F; [discriminate|]. apply andb_false_iff in F as [F|F].
        - exists a0. split; simpl; auto. apply Nat.eqb_neq; auto.
        - destruct (IHarms F) as (r & ? & ?). exists r; simpl; auto. }
      exists isarr, (a :: arms), r, a. repeat split; simpl; auto. }
  destruct (String.eqb_spec (descr_type d) "discrete") as [T''|T''].
  { destruct (S2 T'') as (l & ->). left. eexists; split; [reflexivity|]. unfold var_of; simpl. unfold is_bandit_descr. rewrite T''.
    repeat split; auto; try discriminate.
    intros [B|[B|(B & _)]]; try congruence. rewrite T'' in B; apply B; simpl; auto. }
  destruct (String.eqb_spec (descr_type d) "categorical") as [T3|T3].
  { destruct (S3 T3) as (l & ->). left. eexists; split; [reflexivity|]. unfold var_of; simpl. unfold is_bandit_descr. rewrite T3.
    repeat split; auto; try discriminate.
    intros [B|[B|(B & _)]]; try congruence. rewrite T3 in B; apply B; simpl; auto. }
  right. split; auto. right; left. unfold known_types; simpl. intuition.
Qed.

Inductive vars_of : nat -> list descr -> list variable -> Prop :=
| vars_nil i : vars_of i [] []
| vars_cons i d ds v vs : var_of i d v -> vars_of (S i) ds vs -> vars_of i (d :: ds) (v :: vs).

Lemma translate_spec ds : Forall shape_ok ds -> forall i,
  (exists vs, translate_from i ds = Ok vs /\ vars_of i ds vs /\ Forall (fun d => ~ bad1 d) ds) \/
  (translate_from i ds = Raise InvalidConfigError /\ Exists bad1 ds).
Proof.
  induction 1 as [|d ds Hd _ IH]; intro i; cbn [translate_from].
  - left. exists []. repeat split; constructor.
  - change (match d_name d with Some n => n | None => ("var_" ++ str_nat i)%string end) with (descr_name i d).
    change (match d_type d with Some ty => ty | None => "continuous"%string end) with (descr_type d).
    destruct (d_domain d) as [dom|] eqn:D.
    + destruct (create_spec i d dom Hd D) as [(v & -> & V & N)|(-> & N)]; simpl.
      * destruct (IH (S i)) as [(vs & -> & Vs & Ns)|(-> & Ns)]; simpl.
        -- left. exists (v :: vs). repeat split; auto; constructor; auto.
        -- right. split; auto.
      * right. split; auto.
    + right. split; auto. constructor. left; auto.
Qed.

Lemma vars_of_bandit i ds vs : vars_of i ds vs ->
  (existsb (fun v => is_bandit (v_kind v)) vs = true <-> exists d, In d ds /\ is_bandit_descr d) /\
  (existsb (fun v => negb (is_bandit (v_kind v))) vs = true <-> exists d, In d ds /\ ~ is_bandit_descr d).
Proof.
  induction 1 as [|i d ds v vs V _ (IH1 & IH2)]; simpl.
  - split; split; try discriminate; intros (d & [] & _).
  - destruct V as (_ & _ & _ & V). rewrite !orb_true_iff, IH1, IH2. rewrite negb_true_iff. split; split.
    + intros [H|(d' & H1 & H2)]; [exists d; split; auto; apply V; auto | eauto].
    + intros (d' & [<-|H1] & H2); [left; apply V; auto | right; eauto].
    + intros [H|(d' & H1 & H2)]; [exists d; split; auto; intro C; apply V in C; congruence | eauto].
    + intros (d' & [<-|H1] & H2); [left | right; eauto]. destruct (is_bandit (v_kind v)); auto. exfalso; apply H2, V; auto.
Qed.

Lemma expand_config_spec ds :
  (exists cfg, expand_config_space ds = Ok cfg /\ ~ unnamed_with_dim ds) \/
  (expand_config_space ds = Raise KeyError /\ unnamed_with_dim ds).
Proof.
  unfold expand_config_space.
  assert (G : (exists l, mapM expand_config1 ds = Ok l /\ ~ unnamed_with_dim ds) \/
              (mapM expand_config1 ds = Raise KeyError /\ unnamed_with_dim ds)).
  { induction ds as [|d ds IH]; simpl.
    - left. exists []. split; auto. intros (d & n & [] & _).
    - unfold expand_config1 at 1 3. destruct (d_dim d) as [n|] eqn:Dn.
      + destruct (d_name d) as [nm|] eqn:Nm.
        * rewrite mapM_all_ok with (g := fun k => mk_descr (Some (nm ++ "_" ++ str_nat (S k))%string) (d_type d) (d_domain d) (Some 1)) by auto.
          simpl. destruct IH as [(l & -> & N)|(-> & d' & n' & I & N1 & N2)]; simpl.
          -- left. eexists; split; auto. intros (d' & n' & [<-|I] & N1 & N2); [congruence|]. apply N. exists d', n'. auto.
          -- right. split; auto. exists d', n'. repeat split; simpl; auto.
        * destruct n as [|n].
          -- simpl. destruct IH as [(l & -> & N)|(-> & d' & n' & I & N1 & N2)]; simpl.
             ++ left. eexists; split; auto. intros (d' & n' & [<-|I] & N1 & N2); [congruence|]. apply N. exists d', n'. auto.
             ++ right. split; auto. exists d', n'. repeat split; simpl; auto.
          -- simpl. right. split; auto. exists d, n. simpl; auto.
      + simpl. destruct IH as [(l & -> & N)|(-> & d' & n' & I & N1 & N2)]; simpl.
        * left. eexists; split; auto. intros (d' & n' & [<-|I] & N1 & N2); [congruence|]. apply N. exists d', n'. auto.
        * right. split; auto. exists d', n'. repeat split; simpl; auto. }
  destruct G as [(l & -> & N)|(-> & N)]; simpl; [left; eauto | right; auto].
Qed.

Lemma dim_names_map i d (k : kind) : map (fun n => (n, k)) (dim_names i d) =
  map (fun j => ((if Nat.ltb 1 (descr_dim d) then (descr_name i d ++ "_" ++ str_nat (S j))%string else descr_name i d), k)) (seq 0 (descr_dim d)).
Proof.
  unfold dim_names. destruct (descr_dim d) as [|[|n]]; [reflexivity|reflexivity|].
  rewrite map_map. apply map_ext. intros; reflexivity.
Qed.

Lemma expand_vars_spec i ds vs : vars_of i ds vs ->
  (exists xss, mapM expand_var vs = Ok xss /\ expands i ds (map (fun x => (x_name x, x_kind x)) (concat xss)) /\ ~ list_bandit ds) \/
  (mapM expand_var vs = Raise AttributeError /\ list_bandit ds).
Proof.
  induction 1 as [|i d ds v vs V _ IH].
  - left. exists []. repeat split; [constructor | intros (d & r & [] & _)].
  - destruct V as (N & D & Dm & B). simpl.
    destruct (is_bandit (v_kind v)) eqn:Bk.
    + unfold expand_var at 1 3. destruct (v_kind v) as [| |isarr arms|] eqn:K; try discriminate.
      destruct isarr; simpl.
      * destruct IH as [(xss & -> & E & NL)|(-> & NL)]; simpl.
        -- left. eexists; split; [reflexivity|]. simpl. rewrite N. split.
           ++ apply expands_bandit; auto.
           ++ intros (d' & r & [<-|I] & B' & D'); [simpl in D; destruct D; congruence|]. apply NL. exists d', r; auto.
        -- right. split; auto. destruct NL as (d' & r & I & ?). exists d', r. simpl; tauto.
      * right. split; auto. exists d, arms. simpl in D. destruct D. repeat split; simpl; auto.
    + assert (Ex : expand_var v = Ok (map (fun j => mk_xvar
                 (if Nat.ltb 1 (v_dim v) then (v_name v ++ "_" ++ str_nat (S j))%string else v_name v)
                 (v_kind v) (match v_kind v with KCat cats => length cats | _ => 1 end) [] []) (seq 0 (v_dim v)))).
      { unfold expand_var. destruct (v_kind v); try discriminate; reflexivity. }
      rewrite Ex. simpl. rewrite (Dm eq_refl), N in *.
      destruct IH as [(xss & -> & E & NL)|(-> & NL)]; simpl.
      * left. eexists; split; [reflexivity|]. split.
        -- cbn [concat]. rewrite map_app, map_map. cbn [x_name x_kind]. rewrite <- dim_names_map. apply expands_num; auto.
        -- intros (d' & r & [<-|I] & B' & D'); [apply B in B'; congruence|]. apply NL. exists d', r; auto.
      * right. split; auto. destruct NL as (d' & r & I & ?). exists d', r. simpl; tauto.
Qed.

Theorem design_space_classified ds cs : Forall shape_ok ds ->
  (malformed ds -> design_space ds cs = Raise InvalidConfigError) /\
  (~ malformed ds -> unnamed_with_dim ds -> design_space ds cs = Raise KeyError) /\
  (~ malformed ds -> ~ unnamed_with_dim ds -> list_bandit ds -> design_space ds cs = Raise AttributeError) /\
  (~ malformed ds -> ~ unnamed_with_dim ds -> ~ list_bandit ds ->
     exists sp, design_space ds cs = Ok sp /\
       expands 0 ds (map (fun x => (x_name x, x_kind x)) (sp_xvars sp))).
Proof.
  intro S. unfold design_space, translate_space.
  destruct (translate_spec ds S 0) as [(vs & -> & V & NB)|(-> & EB)]; simpl.
  2:{ assert (malformed ds). { left. apply Exists_exists in EB as (d & I & Hd). exists d. split; auto. }
      repeat split; try tauto. }
  destruct (vars_of_bandit _ _ _ V) as (B1 & B2).
  destruct (existsb (fun v => is_bandit (v_kind v)) vs && existsb (fun v => negb (is_bandit (v_kind v))) vs) eqn:E; simpl.
  { apply andb_true_iff in E as [E1 E2]. assert (malformed ds). { right. split; [apply B1|apply B2]; auto. }
    repeat split; try tauto. }
  assert (NM : ~ malformed ds).
  { intros [(d & I & Hd)|(M1 & M2)].
    - rewrite Forall_forall in NB. apply (NB d I). exact Hd.
    - apply B1 in M1. apply B2 in M2. rewrite M1, M2 in E. discriminate. }
  destruct (expand_config_spec ds) as [(cfg & -> & NU)|(-> & U)]; simpl; [|repeat split; tauto].
  destruct (expand_vars_spec _ _ _ V) as [(xss & -> & X & NL)|(-> & L)]; simpl; [|repeat split; tauto].
  repeat split; try tauto. intros _ _ _. eexists; split; [reflexivity|]. simpl.
  rewrite (set_indices_map (fun x => (x_name x, x_kind x))); auto.
Qed.

(** ---- find_variable ---- *)
Lemma find_rev_some {A} (f : A -> bool) l v : find f (rev l) = Some v -> In v l /\ f v = true.
Proof. intro H. apply find_some in H as [H1 H2]. split; auto. apply in_rev; auto. Qed.

Lemma find_variable_spec sp n :
  ((~ exists v, In v (sp_xvars sp) /\ x_name v = n) <-> find_variable sp n = Raise InvalidVariableNameError) /\
  (forall v, find_variable sp n = Ok v -> In v (sp_xvars sp) /\ x_name v = n) /\
  (forall v, NoDup (map x_name (sp_xvars sp)) -> In v (sp_xvars sp) -> x_name v = n -> find_variable sp n = Ok v).
Proof.
  unfold find_variable. destruct (find _ (rev (sp_xvars sp))) as [v|] eqn:F.
  - apply find_rev_some in F as [F1 F2]. apply String.eqb_eq in F2. repeat split; try congruence.
    + intro H. exfalso. apply H. eauto.
    + intros v' N I E. f_equal. clear -N F1 F2 I E. revert N F1 I. generalize (sp_xvars sp). induction l; simpl; intros; [tauto|].
      inversion N; subst. destruct F1 as [->|F1], I as [->|I]; auto.
      * exfalso. apply H1. rewrite <- E. apply in_map; auto.
      * exfalso. apply H1. rewrite E. apply in_map_iff. exists v; auto.
  - repeat split; try congruence.
    + intros _ (v & I & E). apply in_rev in I. apply (find_none _ _ F v) in I.
      subst. rewrite String.eqb_refl in I. discriminate.
    + intros v _ I E. exfalso. apply in_rev in I. apply (find_none _ _ F v) in I. subst. rewrite String.eqb_refl in I. discriminate.
Qed.

(** ---- constraints ---- *)
Lemma fix_constr_denotes c f : c_constraint (fix_constr c) = Some f <-> denotes_constr c f.
Proof.
  unfold fix_constr, denotes_constr. destruct (c_constrain c) as [g|]; simpl; [|tauto].
  split; [intros [= ->]; auto | intros ->; auto].
Qed.

Lemma indicator_loop_ok cs X : forall I0 I, length I0 = length X ->
  indicator_loop (map fix_constr cs) X I0 = Ok I ->
  (forall c x, In c cs -> In x X -> exists v, constraint_value c x v) /\
  exists fs : list Qc, length fs = length X /\
    Forall2 (fun x i => (i = 1%Qc /\ forall c, In c cs -> satisfies c x) \/ (i = 0%Qc /\ exists c, In c cs /\ violates c x)) X fs /\
    I = map (fun '(a, b) => (a * b)%Qc) (combine I0 fs).
Proof.
  induction cs as [|c cs IH]; intros I0 I L H; simpl in H.
  - injection H as <-. split; [intros c x []|]. exists (map (fun _ => 1%Qc) X). rewrite map_length. repeat split; auto.
    + clear. induction X; simpl; constructor; auto. left. split; auto. intros c [].
    + clear -L. revert X L. induction I0; intros [|x X] L; try discriminate; simpl; auto. injection L as L.
      f_equal; [ring | apply IHI0; auto].
  - destruct (c_constraint (fix_constr c)) as [f|] eqn:F; [|discriminate]. apply fix_constr_denotes in F.
    apply bind_ok in H as (vals & Hv & H). pose proof (mapM_length _ _ _ Hv) as Lv. apply mapM_ok_Forall2 in Hv.
    apply IH in H as (A & fs & Lf & F2 & E); [|rewrite map_length, combine_length; lia].
    split.
    + intros c' x [<-|Hc] Hx; [|eauto]. clear -Hv Hx F. induction Hv; [destruct Hx|]. destruct Hx as [<-|Hx]; auto.
      exists y. exists f; auto.
    + exists (map (fun '(v, i) => ((if qcle v q0 then q1 else q0) * i)%Qc) (combine vals fs)).
      split; [rewrite map_length, combine_length; lia|]. split.
      * clear E Lf Lv L IH A. revert fs F2. induction Hv as [|x v X vals Hx Hv IHv]; intros fs F2; inversion F2; subst; simpl; constructor; auto.
        destruct (qcle v q0) eqn:Ev; qcases.
        -- destruct H1 as [(-> & S)|(-> & c' & Hc & V)].
           ++ left. split; [unfold q1; ring|]. intros c' [<-|Hc]; auto. exists v. split; auto. exists f; auto.
           ++ right. split; [unfold q1; ring|]. eauto.
        -- right. split; [unfold q0; ring|]. exists c. split; auto. exists v. split; auto. exists f; auto.
      * rewrite E. clear -Lf Lv L. revert I0 vals fs L Lv Lf. induction X; intros [|i I0] [|v vals] [|g fs] L Lv Lf; try discriminate; simpl; auto.
        injection L as L. injection Lv as Lv. injection Lf as Lf. f_equal; [ring|]. apply IHX; auto.
Qed.

Lemma indicator_loop_total cs X : forall I0, length I0 = length X ->
  (forall c x, In c cs -> In x X -> exists v, constraint_value c x v) -> X <> [] ->
  exists I, indicator_loop (map fix_constr cs) X I0 = Ok I.
Proof.
  induction cs as [|c cs IH]; intros I0 L H NE; simpl; eauto.
  assert (exists f, denotes_constr c f) as (f & F).
  { destruct X as [|x X]; [congruence|]. destruct (H c x) as (v & f & F & _); simpl; eauto. }
  rewrite (proj2 (fix_constr_denotes c f) F).
  assert (exists vals, mapM f X = Ok vals /\ length vals = length X) as (vals & -> & Lv).
  { assert (G : forall x, In x X -> exists v, f x = Ok v).
    { intros x Hx. destruct (H c x) as (v & f' & F' & E); simpl; auto. exists v.
      assert (f' = f) as <-; auto. unfold denotes_constr in *. destruct (c_constrain c); congruence. }
    clear -G. induction X as [|x X IH]; simpl; [eauto|]. destruct (G x) as (v & ->); simpl; auto.
    destruct IH as (vals & -> & L); [intros; apply G; simpl; auto|]. simpl. exists (v :: vals). simpl; auto. }
  simpl. apply IH; auto.
  - rewrite map_length, combine_length. lia.
  - intros; apply H; simpl; auto.
Qed.

Lemma indicator_spec sp cs X : sp_constraints sp = Some (map fix_constr cs) -> X <> [] ->
  ((exists I, indicator_constraints sp X = Ok I) <-> (forall c x, In c cs -> In x X -> exists v, constraint_value c x v)) /\
  (forall I, indicator_constraints sp X = Ok I ->
    Forall2 (fun x i => (i = 1%Qc /\ forall c, In c cs -> satisfies c x) \/ (i = 0%Qc /\ exists c, In c cs /\ violates c x)) X I).
Proof.
  intros S NE. unfold indicator_constraints. rewrite S, (atleast_2d_ne X NE).
  assert (L : length (repeat q1 (length X)) = length X) by apply repeat_length.
  split; [split|].
  - intros (I & H). apply indicator_loop_ok in H; auto. apply H.
  - intro H. apply indicator_loop_total; auto.
  - intros I H. apply indicator_loop_ok in H as (_ & fs & Lf & F & ->); auto.
    replace (map _ _) with fs; auto. clear -Lf. revert fs Lf. induction X; intros [|g fs] Lf; try discriminate; simpl; auto.
    injection Lf as Lf. f_equal; [unfold q1; ring | apply IHX; auto].
Qed.

Lemma design_space_constraints ds cs sp : design_space ds cs = Ok sp ->
  sp_constraints sp = match cs with None => None | Some l => Some (map fix_constr l) end.
Proof.
  unfold design_space. intro H. apply bind_ok in H as (vs & _ & H). apply bind_ok in H as (cfg & _ & H).
  apply bind_ok in H as (xs & _ & H). injection H as <-. reflexivity.
Qed.
