(** Possible values.  Spec: Spec/ValuesSpec.v *)
From Coq Require Import List ZArith QArith Qcanon Bool Lia.
From Verif.Model Require Import Py Space Values.
From Verif.Spec Require Import SpaceSpec QuerySpec ValuesSpec.
From Verif.Proof Require Import Num SpaceP RoundP.
Import ListNotations.
Local Open Scope nat_scope.

Lemma eye_one_hot n b : In b (eye n) <-> exists i, one_hot n i b.
Proof.
  unfold eye. rewrite in_map_iff. split.
  - intros (i & <- & I). apply in_seq in I. exists i. split; [now rewrite map_length, seq_length|]. split; [lia|].
    intros j J. rewrite (map_nth_error (fun j => if j =? i then q1 else q0) j (seq 0 n) (d := j)); [destruct (j =? i); reflexivity|].
    rewrite (nth_error_nth' _ 0) by (now rewrite seq_length). now rewrite seq_nth.
  - intros (i & L & I & H). exists i. split; [|apply in_seq; lia].
    apply nth_error_ext. intros j. destruct (Nat.lt_ge_cases j n) as [J|J].
    + rewrite H by exact J. rewrite (map_nth_error (fun j => if j =? i then q1 else q0) j (seq 0 n) (d := j)); [destruct (j =? i); reflexivity|].
      rewrite (nth_error_nth' _ 0) by (now rewrite seq_length). now rewrite seq_nth.
    + transitivity (@None Qc); [|symmetry]; apply nth_error_None; [rewrite map_length, seq_length; lia|lia].
Qed.
Lemma possible_valid k : is_continuous k = false -> exists vals, get_possible_values k = Ok vals /\ forall b, In b vals <-> valid_block k b.
Proof.
  destruct k as [lo hi|vals|isarr arms|cats]; intros C; try discriminate; cbn [get_possible_values]; eexists; (split; [reflexivity|]); intros b; cbn [valid_block].
  - rewrite in_map_iff. split; intros (x & A & B); exists x; split; auto.
  - reflexivity.
  - apply eye_one_hot.
Qed.
Lemma rounds_valid v a : xv_ok v -> wf_kind (x_kind v) -> length a = x_mdim v -> exists b, rounds_to v a b /\ valid_block (x_kind v) b /\ (forall b', rounds_to v a b' -> b' = b) /\ (valid_block (x_kind v) a -> b = a).
Proof.
  intros O W L. destruct (var_round_spec v a O W L) as (b & E & V & M). exists b. split; [unfold rounds_to; destruct (is_bandit (x_kind v)); auto|]. split; [exact V|]. split.
  - intros b' [H|H]; destruct (is_bandit (x_kind v)); rewrite E in H; congruence.
  - intros VA. symmetry. apply dist2_zero.
    + rewrite L, (valid_block_width _ _ W V). exact O.
    + specialize (M a VA). rewrite dist2_refl in M. exact M.
Qed.
Lemma choices_in vals : forall z, In z (choices vals) <-> exists bs, Forall2 (fun b m => In b m) bs vals /\ z = concat bs.
Proof.
  induction vals as [|m r IH]; intros z; cbn [choices].
  - split; [intros [<-|[]]; exists []; split; [constructor|reflexivity]|]. intros (bs & F & ->). inversion F; subst. now left.
  - rewrite in_flat_map. split.
    + intros (b & B & H). apply in_map_iff in H. destruct H as (t & <- & T). apply IH in T. destruct T as (bs & F & ->). exists (b :: bs). split; [now constructor|reflexivity].
    + intros (bs & F & ->). inversion F as [|b ? bs' ? B F']; subst. exists b. split; [exact B|]. cbn [concat]. apply in_map, IH. now exists bs'.
Qed.
Lemma choices_length vals : length (choices vals) = fold_right Nat.mul 1 (map (@length vec) vals).
Proof.
  induction vals as [|m r IH]; [reflexivity|]. cbn [choices map fold_right]. rewrite <- IH. clear IH. generalize (choices r). intros l.
  induction m as [|b m IHm]; [reflexivity|]. cbn [flat_map length Nat.mul]. rewrite app_length, map_length. unfold vec in *. now rewrite IHm.
Qed.
Lemma app_inj_len {A} (a b c d : list A) : length a = length b -> a ++ c = b ++ d -> a = b /\ c = d.
Proof. revert b. induction a as [|x a IH]; intros [|y b] L E; try discriminate; [now split|]. injection E as -> E. destruct (IH b) as [-> ->]; auto. Qed.
Lemma NoDup_map_inj {A B} (f : A -> B) l : (forall a b, f a = f b -> a = b) -> NoDup l -> NoDup (map f l).
Proof. intros I. induction 1 as [|a l N D IH]; cbn; constructor; [|exact IH]. rewrite in_map_iff. intros (b & E & H). apply I in E. now subst. Qed.
Lemma NoDup_app_disjoint {A} (l m : list A) : NoDup l -> NoDup m -> (forall a, In a l -> ~ In a m) -> NoDup (l ++ m).
Proof.
  induction 1 as [|a l N D IH]; intros M H; [exact M|]. cbn. constructor.
  - rewrite in_app_iff. intros [I|I]; [easy|]. apply (H a); [now left|exact I].
  - apply IH; [exact M|]. intros b I. apply H. now right.
Qed.
Lemma choices_nodup vals : Forall (fun m => NoDup m /\ exists w, forall b, In b m -> length b = w) vals -> NoDup (choices vals).
Proof.
  induction 1 as [|m r [D (w & W)] F IH]; cbn [choices]; [repeat constructor; intros []|].
  induction D as [|b m N D IHm]; cbn [flat_map]; [constructor|]. apply NoDup_app_disjoint.
  - apply NoDup_map_inj; [|exact IH]. intros s t E. now apply app_inv_head in E.
  - apply IHm. intros c I. apply W. now right.
  - intros z I J. apply in_map_iff in I. destruct I as (s & <- & _). apply in_flat_map in J. destruct J as (c & C & J). apply in_map_iff in J. destruct J as (t & E & _).
    apply app_inj_len in E; [|rewrite (W c), (W b); [reflexivity|now left|now right]]. destruct E as [-> _]. easy.
Qed.
Lemma points_choices vs vals : Forall2 (fun v m => get_possible_values (x_kind v) = Ok m) vs vals -> Forall (fun v => is_continuous (x_kind v) = false) vs ->
  forall z, design_point (map x_kind vs) z <-> In z (choices vals).
Proof.
  intros F C z. rewrite choices_in. revert z. induction F as [|v m vs vals E F IH]; intros z; cbn [map].
  - split; [intros H; inversion H; exists []; split; [constructor|reflexivity]|]. intros (bs & G & ->). inversion G. constructor.
  - inversion C as [|? ? Cv Cs]; subst. destruct (possible_valid _ Cv) as (m' & E' & V). assert (m' = m) by congruence. subst m'. split.
    + intros H. inversion H as [|? ? b t B T]; subst. apply IH in T; [|exact Cs]. destruct T as (bs & G & ->). exists (b :: bs). split; [|reflexivity]. constructor; [now apply V|exact G].
    + intros (bs & G & ->). inversion G as [|b ? bs' ? B G']; subst. cbn [concat]. constructor; [now apply V|]. apply IH; [exact Cs|]. now exists bs'.
Qed.
Lemma filter_kept {A} (p : A -> bool) l : kept_from (filter p l) l.
Proof. induction l as [|a l IH]; cbn; [constructor|]. destruct (p a); now constructor. Qed.
