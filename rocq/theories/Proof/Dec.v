(** Boolean equality by reflection, to close concrete computations ([Qc] carries proofs, so
    [reflexivity] after [vm_compute] does not always apply). *)
From Coq Require Import String List ZArith QArith Qcanon Bool Ascii.
From Verif.Model Require Import Py.
From Verif.Proof Require Import Num.
Import ListNotations.
Local Open Scope nat_scope.

Class EqD (A : Type) := { eqd : A -> A -> bool; eqd_ok : forall a b, eqd a b = true -> a = b }.

Global Instance EqD_Qc : EqD Qc := {| eqd := qceq; eqd_ok := fun a b => proj1 (qceq_spec a b) |}.
Global Instance EqD_nat : EqD nat := {| eqd := Nat.eqb; eqd_ok := fun a b => proj1 (PeanoNat.Nat.eqb_eq a b) |}.
Global Instance EqD_Z : EqD Z := {| eqd := Z.eqb; eqd_ok := fun a b => proj1 (Z.eqb_eq a b) |}.
Global Instance EqD_string : EqD string := {| eqd := String.eqb; eqd_ok := fun a b => proj1 (String.eqb_eq a b) |}.
Lemma booleqb_ok a b : Bool.eqb a b = true -> a = b. Proof. apply eqb_prop. Qed.
Global Instance EqD_bool : EqD bool := {| eqd := Bool.eqb; eqd_ok := booleqb_ok |}.

Definition exn_eqb (a b : exn) : bool :=
  match a, b with
  | IndexError, IndexError | ValueError, ValueError | TypeError, TypeError | ZeroDivisionError, ZeroDivisionError
  | AttributeError, AttributeError | KeyError, KeyError | NameError, NameError | AssertionError, AssertionError
  | NotImplementedError, NotImplementedError | UnboundLocalError, UnboundLocalError | LinAlgError, LinAlgError
  | InvalidConfigError, InvalidConfigError | InvalidVariableNameError, InvalidVariableNameError
  | FullyExplored, FullyExplored | OutOfModel, OutOfModel => true
  | UserError n, UserError m => Nat.eqb n m
  | _, _ => false
  end.
Lemma exn_eqb_ok a b : exn_eqb a b = true -> a = b.
Proof. destruct a, b; simpl; try discriminate; auto. intro H. apply PeanoNat.Nat.eqb_eq in H. congruence. Qed.
Global Instance EqD_exn : EqD exn := {| eqd := exn_eqb; eqd_ok := exn_eqb_ok |}.

Section Comb.
  Context {A B : Type} {EA : EqD A} {EB : EqD B}.
  Fixpoint list_eqd (l l' : list A) : bool :=
    match l, l' with
    | [], [] => true
    | a :: t, b :: t' => eqd a b && list_eqd t t'
    | _, _ => false
    end.
  Lemma list_eqd_ok l : forall l', list_eqd l l' = true -> l = l'.
  Proof.
    induction l; intros [|b t']; simpl; try discriminate; auto.
    intro H. apply andb_true_iff in H as [H1 H2]. apply eqd_ok in H1. apply IHl in H2. congruence.
  Qed.
  Global Instance EqD_list : EqD (list A) := {| eqd := list_eqd; eqd_ok := list_eqd_ok |}.
  Definition option_eqd (x y : option A) : bool :=
    match x, y with Some a, Some b => eqd a b | None, None => true | _, _ => false end.
  Lemma option_eqd_ok x y : option_eqd x y = true -> x = y.
  Proof. destruct x, y; simpl; try discriminate; auto. intro H. apply eqd_ok in H. congruence. Qed.
  Global Instance EqD_option : EqD (option A) := {| eqd := option_eqd; eqd_ok := option_eqd_ok |}.
  Definition res_eqd (x y : res A) : bool :=
    match x, y with Ok a, Ok b => eqd a b | Raise e, Raise f => eqd e f | _, _ => false end.
  Lemma res_eqd_ok x y : res_eqd x y = true -> x = y.
  Proof. destruct x, y; simpl; try discriminate; auto; intro H. apply eqd_ok in H. congruence. apply exn_eqb_ok in H. congruence. Qed.
  Global Instance EqD_res : EqD (res A) := {| eqd := res_eqd; eqd_ok := res_eqd_ok |}.
  Definition pair_eqd (x y : A * B) : bool := eqd (fst x) (fst y) && eqd (snd x) (snd y).
  Lemma pair_eqd_ok x y : pair_eqd x y = true -> x = y.
  Proof.
    destruct x, y; unfold pair_eqd; simpl. intro H. apply andb_true_iff in H as [H1 H2].
    apply eqd_ok in H1. apply eqd_ok in H2. congruence.
  Qed.
  Global Instance EqD_pair : EqD (A * B) := {| eqd := pair_eqd; eqd_ok := pair_eqd_ok |}.
End Comb.
Global Instance EqD_vec : EqD vec := EqD_list.
Global Instance EqD_mat : EqD mat := EqD_list.

Lemma by_eqd {A} {E : EqD A} (a b : A) : eqd a b = true -> a = b.
Proof. apply eqd_ok. Qed.
Ltac vmeq := apply by_eqd; vm_compute; reflexivity.
Ltac qcle_dec := apply (proj1 (qcle_spec _ _)); vm_compute; reflexivity.
Ltac qclt_dec := apply (proj1 (qclt_spec _ _)); vm_compute; reflexivity.
Ltac qcne_dec := apply (proj1 (qceq_false _ _)); vm_compute; reflexivity.
