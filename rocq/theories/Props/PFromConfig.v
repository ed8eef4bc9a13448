(** C101: design spaces read from a configuration.  Specification: Spec/FromConfigSpec.v.  Model: Model/FromConfig.v. *)
From Coq Require Import String List ZArith QArith Qcanon Bool Lia.
From Verif.Model Require Import Py Space FromConfig.
From Verif.Spec Require Import SpaceSpec FromConfigSpec Examples.
From Verif.Proof Require Import FromConfigP.
Import ListNotations.
Local Open Scope nat_scope.
Local Open Scope string_scope.
Local Open Scope list_scope.

(** A configuration in strings gives the space, or the exception, of the description in values; no constraints means None.  The
    configuration itself has been turned into values. *)
Theorem C101_same_space : forall rd ds vs constraints, Forall2 (says rd) ds vs ->
  fromConfig rd ds constraints = (map in_values vs, design_space vs (match constraints with [] => None | _ => Some constraints end)).
Proof.
  intros rd ds vs cs H. unfold fromConfig. pose proof (read_all_says rd ds vs [] H) as R. rewrite app_nil_r in R. rewrite R. cbn [read_all fst snd].
  rewrite app_nil_r, mapM_as_descr. reflexivity.
Qed.
Print Assumptions C101_same_space.
(** Therefore it can be read only once: the second time ValueError. *)
Theorem C101_second_time_refuted : forall rd ds vs constraints constraints', Forall2 (says rd) ds vs -> ds <> [] ->
  let ds' := fst (fromConfig rd ds constraints) in fromConfig rd ds' constraints' = (ds', Raise ValueError).
Proof.
  intros rd ds vs cs cs' H NE. rewrite (C101_same_space rd ds vs cs H). cbn [fst]. destruct H as [|d v ds vs S H]; [congruence|]. cbn [map].
  unfold fromConfig. destruct (says_present rd d v S) as [N D]. rewrite read_values by assumption. reflexivity.
Qed.
Print Assumptions C101_second_time_refuted.
(** A mistake in a later variable is reported, but the earlier ones have been changed by then: whatever is put in its place, the corrected
    configuration raises ValueError. *)
Theorem C101_mistake_is_final : forall rd ds vs bad rest constraints e, Forall2 (says rd) ds vs -> ds <> [] ->
  (match read_dim rd bad with Raise e' => e' = e | Ok d => read_domain rd d = Raise e end) ->
  exists bad', fromConfig rd (ds ++ bad :: rest) constraints = (map in_values vs ++ bad' :: rest, Raise e) /\
    forall fixed constraints', snd (fromConfig rd (map in_values vs ++ fixed) constraints') = Raise ValueError.
Proof.
  intros rd ds vs bad rest cs e H NE B.
  assert (X : exists bad', read_all rd (bad :: rest) = (bad' :: rest, Raise e)).
  { cbn [read_all]. destruct (read_dim rd bad) as [d|e']; [rewrite B; eauto|]. subst e'. eauto. }
  destruct X as (bad' & X). exists bad'. split.
  - unfold fromConfig. rewrite (read_all_says rd ds vs (bad :: rest) H), X. reflexivity.
  - intros fixed cs'. destruct H as [|d v ds vs S H]; [congruence|]. cbn [map app]. unfold fromConfig.
    destruct (says_present rd d v S) as [N D]. rewrite read_values by assumption. reflexivity.
Qed.
Print Assumptions C101_mistake_is_final.
(** The dimensionality, optional for the constructor, is required here: KeyError, whatever follows. *)
Theorem C101_dimensionality_required : forall rd ds vs d rest constraints, Forall2 (says rd) ds vs -> cv_dim d = None ->
  snd (fromConfig rd (ds ++ d :: rest) constraints) = Raise KeyError.
Proof.
  intros rd ds vs d rest cs H N. unfold fromConfig. rewrite (read_all_says rd ds vs (d :: rest) H). cbn [read_all]. unfold read_dim. rewrite N. reflexivity.
Qed.
Print Assumptions C101_dimensionality_required.
(** And so is the name. *)
Theorem C101_name_required : forall rd ds vs constraints v n, Forall2 (says rd) ds vs -> In v vs -> d_name v = None -> d_dim v = Some (S n) ->
  forall sp, snd (fromConfig rd ds constraints) <> Ok sp.
Proof.
  intros rd ds vs cs v n H I N D sp. rewrite (C101_same_space rd ds vs cs H). cbn [snd]. unfold design_space.
  destruct (translate_space vs) as [tv|e]; [|discriminate]. cbn [bind].
  assert (X : forall cfg, expand_config_space vs <> Ok cfg).
  { unfold expand_config_space. assert (Y : forall ls, mapM expand_config1 vs <> Ok ls); [|destruct (mapM expand_config1 vs) as [ls|e] eqn:E; [|discriminate]; destruct (Y ls eq_refl)].
    clear - I N D. induction vs as [|w vs IH]; [destruct I|]. intros ls. cbn [mapM]. destruct I as [->|I].
    - unfold expand_config1. rewrite D. cbn [seq mapM]. rewrite N. cbn [bind]. discriminate.
    - destruct (expand_config1 w); [|discriminate]. cbn [bind]. destruct (mapM expand_config1 vs) as [l'|e]; [|discriminate]. exfalso. exact (IH I l' eq_refl). }
  destruct (expand_config_space vs) as [cfg|e]; [destruct (X cfg eq_refl)|discriminate].
Qed.
Print Assumptions C101_name_required.

Example C101_nonvacuous :
  let rd := mk_readers (fun s => if String.eqb s "(0,1)" then Ok (RNums [z 0; z 1]) else Raise ValueError) (fun s => if String.eqb s "2" then Ok 2 else Raise ValueError) in
  let d := mk_cvar (Some "x") (Some "continuous") (Some (CStr "(0,1)")) (Some (CStr "2")) in
  let v := mk_descr (Some "x") (Some "continuous") (Some (RNums [z 0; z 1])) (Some 2) in
  says rd d v /\ (exists sp, snd (fromConfig rd [d] []) = Ok sp /\ sp_dim sp = 2) /\
  read_dim rd (mk_cvar (Some "y") None (Some (CStr "(0,1)")) (Some (CStr "two"))) = Raise ValueError /\
  (exists sp, design_space [mk_descr (Some "y") None (Some (RNums [z 0; z 1])) None] None = Ok sp).
Proof.
  cbv zeta. split; [|split; [|split]].
  - split; [reflexivity|]. split; [reflexivity|]. split; [do 2 eexists; repeat split|]. exists 2. split; [reflexivity|]. right. eexists. split; reflexivity.
  - eexists. split; [vm_compute; reflexivity|vm_compute; reflexivity].
  - reflexivity.
  - eexists. vm_compute. reflexivity.
Qed.
