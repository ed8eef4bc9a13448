(** Facts about fromConfig. *)
From Coq Require Import String List Lia.
From Verif.Model Require Import Py Space FromConfig.
From Verif.Spec Require Import FromConfigSpec.
Import ListNotations.

Lemma read_one rd d v : says rd d v -> exists d1, read_dim rd d = Ok d1 /\ read_domain rd d1 = Ok (in_values v).
Proof.
  intros (N & T & (s & dom & D & L & VD) & (n & VN & DN)). unfold read_dim, in_values. rewrite VD, VN. destruct DN as [DN|(s' & DN & I)]; rewrite DN.
  - exists d. split; [reflexivity|]. unfold read_domain. rewrite D, L. cbn [bind option_map]. now rewrite N, T, DN.
  - rewrite I. cbn [bind]. eexists. split; [reflexivity|]. unfold read_domain. cbn [cv_domain]. rewrite D, L. cbn. now rewrite N, T.
Qed.
Lemma read_all_says rd ds vs rest : Forall2 (says rd) ds vs ->
  read_all rd (ds ++ rest) = (map in_values vs ++ fst (read_all rd rest), snd (read_all rd rest)).
Proof.
  induction 1 as [|d v ds vs S _ IH]; cbn [app map].
  - now destruct (read_all rd rest).
  - cbn [read_all]. destruct (read_one rd d v S) as (d1 & R1 & R2). rewrite R1, R2, IH. reflexivity.
Qed.
Lemma as_descr_values v : as_descr (in_values v) = Ok v.
Proof. destruct v as [n t [dom|] [k|]]; reflexivity. Qed.
Lemma mapM_as_descr vs : mapM as_descr (map in_values vs) = Ok vs.
Proof. induction vs as [|v vs IH]; [reflexivity|]. cbn [map mapM]. rewrite as_descr_values. cbn [bind]. rewrite IH. reflexivity. Qed.
Lemma read_values rd v rest : (exists n, d_dim v = Some n) -> (exists dom, d_domain v = Some dom) ->
  read_all rd (in_values v :: rest) = (in_values v :: rest, Raise ValueError).
Proof. intros (n & N) (dom & D). cbn [read_all]. unfold read_dim, read_domain, in_values. cbn. rewrite N, D. reflexivity. Qed.
Lemma says_present rd d v : says rd d v -> (exists n, d_dim v = Some n) /\ (exists dom, d_domain v = Some dom).
Proof. intros (_ & _ & (s & dom & _ & _ & VD) & (n & VN & _)). eauto. Qed.
