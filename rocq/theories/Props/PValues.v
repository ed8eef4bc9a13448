(** C116: the possible values of variables.  Specification: Spec/SpaceSpec.v, Spec/ValuesSpec.v.  Model: Model/Values.v. *)
From Coq Require Import String List ZArith QArith Qcanon Bool Lia.
From Verif.Model Require Import Py Space Values.
From Verif.Spec Require Import SpaceSpec QuerySpec ValuesSpec Examples.
From Verif.Proof Require Import Num Dec SpaceP RoundP ValuesP.
Import ListNotations.
Local Open Scope nat_scope.
Local Open Scope string_scope.
Local Open Scope list_scope.

(** The values a variable lists are exactly its encoded values, exactly what rounding can return and exactly what rounding leaves alone;
    a continuous variable has no list. *)
Theorem C116_values : forall ds cs sp v, design_space ds cs = Ok sp -> In v (sp_xvars sp) -> wf_kind (x_kind v) ->
  ((exists lo hi, x_kind v = KCont lo hi) -> get_possible_values (x_kind v) = Raise AttributeError) /\
  ((~ exists lo hi, x_kind v = KCont lo hi) -> exists vals, get_possible_values (x_kind v) = Ok vals /\ vals <> [] /\
    (forall b, In b vals <-> valid_block (x_kind v) b) /\
    (forall a, List.length a = x_mdim v -> exists b, rounds_to v a b /\ In b vals) /\
    (forall b, In b vals <-> List.length b = x_mdim v /\ rounds_to v b b)).
Proof.
  intros ds cs sp v D I W. assert (O : xv_ok v). { pose proof (sf_ok _ (design_space_facts _ _ _ D)) as F. rewrite Forall_forall in F. now apply F. } split.
  - intros (lo & hi & ->). reflexivity.
  - intros N. assert (C : is_continuous (x_kind v) = false). { destruct (x_kind v); try reflexivity. exfalso. apply N. eauto. }
    destruct (possible_valid _ C) as (vals & E & V). exists vals. split; [exact E|].
    assert (R : forall a, List.length a = x_mdim v -> exists b, rounds_to v a b /\ In b vals).
    { intros a L. destruct (rounds_valid v a O W L) as (b & Hb & Vb & _). exists b. split; [exact Hb|now apply V]. }
    split; [|split; [exact V|split; [exact R|]]].
    + destruct (R (repeat 0%Qc (x_mdim v)) (repeat_length _ _)) as (b & _ & Hb). intros ->. exact Hb.
    + intros b. split.
      * intros Hb. apply V in Hb. assert (L : List.length b = x_mdim v) by (rewrite (valid_block_width _ _ W Hb); symmetry; exact O).
        split; [exact L|]. destruct (rounds_valid v b O W L) as (b' & Hb' & _ & _ & F). now rewrite (F Hb) in Hb'.
      * intros [L Hb]. destruct (rounds_valid v b O W L) as (b' & _ & Vb & U & _). rewrite <- (U b Hb) in Vb. now apply V.
Qed.
Print Assumptions C116_values.

(** In a space without continuous variables the points are exactly the ways to choose a possible value for every variable; there are as
    many as the product of the numbers of values, if no variable lists a value twice. *)
Theorem C116_points : forall ds cs sp, design_space ds cs = Ok sp -> Forall wf_kind (kinds sp) ->
  (forall k, In k (kinds sp) -> ~ exists lo hi, k = KCont lo hi) ->
  exists vals, mapM get_possible_values (kinds sp) = Ok vals /\ (forall z, In z (choices vals) <-> design_point (kinds sp) z) /\
    List.length (choices vals) = fold_right Nat.mul 1 (map (@List.length vec) vals) /\ (Forall (@NoDup vec) vals -> NoDup (choices vals)).
Proof.
  intros ds cs sp D W N.
  assert (C : Forall (fun v => is_continuous (x_kind v) = false) (sp_xvars sp)).
  { apply Forall_forall. intros v I. specialize (N (x_kind v) (in_map _ _ _ I)). destruct (x_kind v); try reflexivity. exfalso. apply N. eauto. }
  assert (M : exists vals, mapM get_possible_values (kinds sp) = Ok vals /\ Forall2 (fun v m => get_possible_values (x_kind v) = Ok m) (sp_xvars sp) vals).
  { unfold kinds. clear W N. induction C as [|v vs Cv Cs IH]; [exists []; split; [reflexivity|constructor]|]. destruct IH as (vals & E & F).
    destruct (possible_valid _ Cv) as (m & Em & _). exists (m :: vals). cbn [map mapM]. rewrite Em. cbn [bind]. rewrite E. split; [reflexivity|]. now constructor. }
  destruct M as (vals & E & F). exists vals. split; [exact E|]. split; [intros z; symmetry; now apply points_choices|]. split; [apply choices_length|].
  intros ND. apply choices_nodup. unfold kinds in W. clear E D N. induction F as [|v m vs vals Em F IH]; [constructor|]. cbn [map] in W.
  inversion W; inversion ND; inversion C; subst. constructor; [|now apply IH]. split; [assumption|]. exists (width (x_kind v)). intros b I.
  destruct (possible_valid (x_kind v)) as (m' & Em' & V); [assumption|]. apply valid_block_width; [assumption|]. apply V. now replace m' with m by congruence.
Qed.
Print Assumptions C116_points.

(** The lists of continuous and of discrete variables: the variables of that type, in order, none missing. *)
Theorem C116_by_type : forall sp,
  kept_from (get_continuous_space sp) (sp_vars sp) /\ (forall v, In v (get_continuous_space sp) <-> In v (sp_vars sp) /\ exists lo hi, v_kind v = KCont lo hi) /\
  kept_from (get_discrete_space sp) (sp_vars sp) /\ (forall v, In v (get_discrete_space sp) <-> In v (sp_vars sp) /\ exists vals, v_kind v = KDisc vals).
Proof.
  intros sp. split; [apply filter_kept|]. split; [|split; [apply filter_kept|]]; intros v; unfold get_continuous_space, get_discrete_space; rewrite filter_In;
    (split; intros [I H]; split; auto).
  - destruct (v_kind v); try discriminate. eauto.
  - destruct H as (lo & hi & ->). reflexivity.
  - destruct (v_kind v); try discriminate. eauto.
  - destruct H as (vals & ->). reflexivity.
Qed.
Print Assumptions C116_by_type.

Definition ds_finite : list descr := [ d_disc "a" [z 1; z 2]; d_cat "b" [z 0; z 1; z 2] ].
Example C116_nonvacuous : exists sp, design_space ds_finite None = Ok sp /\ Forall wf_kind (kinds sp) /\ (forall k, In k (kinds sp) -> ~ exists lo hi, k = KCont lo hi) /\
  mapM get_possible_values (kinds sp) = Ok [[[z 1]; [z 2]]; [[z 1; z 0; z 0]; [z 0; z 1; z 0]; [z 0; z 0; z 1]]] /\
  get_discrete_space sp <> [] /\ get_continuous_space (the_space [d_cont "x" (z 0) (z 1)] None) <> [].
Proof.
  exists (the_space ds_finite None). split; [vm_compute; reflexivity|]. split; [repeat constructor; discriminate|]. split.
  - intros k. vm_compute kinds. intros [<-|[<-|[]]] (lo & hi & E); discriminate.
  - split; [vmeq|]. split; discriminate.
Qed.
