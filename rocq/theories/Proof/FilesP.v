(** Facts about names of files. *)
From Coq Require Import String Ascii List Bool Arith Lia Decimal DecimalString DecimalFacts DecimalNat.
From Verif.Spec Require Import FilesSpec.
From Verif.Model Require Import Py Space Files.
Import ListNotations.
Local Open Scope nat_scope.
Local Open Scope string_scope.

Fixpoint has (c : ascii) (s : string) : bool := match s with EmptyString => false | String d s => Ascii.eqb c d || has c s end.
Lemma has_app c a b : has c (a ++ b) = has c a || has c b.
Proof. induction a as [|d a IH]; [reflexivity|]. cbn. rewrite IH. apply orb_assoc. Qed.
Lemma app_assoc' (a b c : string) : (a ++ b) ++ c = a ++ b ++ c.
Proof. induction a as [|d a IH]; [reflexivity|]. cbn. now rewrite IH. Qed.
Lemma app_inv_head' (a b c : string) : a ++ b = a ++ c -> b = c.
Proof. induction a as [|d a IH]; cbn; intros H; [exact H|]. injection H as H. auto. Qed.
Lemma length_app' (a b : string) : String.length (a ++ b) = String.length a + String.length b.
Proof. induction a as [|d a IH]; cbn; [reflexivity|]. now rewrite IH. Qed.
Lemma app_inv_tail' : forall (b c a : string), b ++ a = c ++ a -> b = c.
Proof.
  induction b as [|d b IH]; intros [|e c] a H; cbn in H.
  - reflexivity.
  - exfalso. apply (f_equal String.length) in H. cbn in H. rewrite length_app' in H. lia.
  - exfalso. apply (f_equal String.length) in H. cbn in H. rewrite length_app' in H. lia.
  - injection H as -> H. f_equal. eauto.
Qed.
(** the separator splits from the right *)
Lemma split_right c : forall a a' b b', has c b = false -> has c b' = false -> a ++ String c b = a' ++ String c b' -> a = a' /\ b = b'.
Proof.
  induction a as [|d a IH]; intros [|d' a'] b b' H H' E; cbn in E.
  - injection E as ->. auto.
  - injection E as <- E. exfalso. rewrite E, has_app in H. cbn in H. rewrite Ascii.eqb_refl in H. rewrite orb_true_r in H. discriminate.
  - injection E as -> E. exfalso. rewrite <- E, has_app in H'. cbn in H'. rewrite Ascii.eqb_refl in H'. rewrite orb_true_r in H'. discriminate.
  - injection E as <- E. destruct (IH a' b b' H H' E) as [-> ->]. auto.
Qed.
(** and from the left *)
Lemma split_left c : forall a a' b b', has c a = false -> has c a' = false -> a ++ String c b = a' ++ String c b' -> a = a' /\ b = b'.
Proof.
  induction a as [|d a IH]; intros [|d' a'] b b' H H' E; cbn in E.
  - injection E as ->. auto.
  - injection E as <- E. cbn in H'. rewrite Ascii.eqb_refl in H'. discriminate.
  - injection E as -> E. cbn in H. rewrite Ascii.eqb_refl in H. discriminate.
  - injection E as <- E. cbn in H, H'. apply orb_false_iff in H as [_ H], H' as [_ H']. destruct (IH a' b b' H H' E) as [-> ->]. auto.
Qed.
Lemma nz_string d : d <> Nil -> NilZero.string_of_uint d = NilEmpty.string_of_uint d.
Proof. destruct d; [congruence|reflexivity..]. Qed.
Lemma ne_has c d : (forall n, In n ["0"; "1"; "2"; "3"; "4"; "5"; "6"; "7"; "8"; "9"]%char -> Ascii.eqb c n = false) -> has c (NilEmpty.string_of_uint d) = false.
Proof. intros H. induction d as [|d IH|d IH|d IH|d IH|d IH|d IH|d IH|d IH|d IH|d IH]; cbn [NilEmpty.string_of_uint has]; [reflexivity|..]; rewrite IH, H by (cbn; tauto); reflexivity. Qed.
Lemma to_uint_nonnil n : Nat.to_uint n <> Nil.
Proof. rewrite <- (Unsigned.of_to n), Unsigned.to_of. apply DecimalFacts.unorm_nonnil. Qed.
Lemma str_nat_has c n : (forall k, In k ["0"; "1"; "2"; "3"; "4"; "5"; "6"; "7"; "8"; "9"]%char -> Ascii.eqb c k = false) -> has c (str_nat n) = false.
Proof. intros H. unfold str_nat. rewrite nz_string by apply to_uint_nonnil. now apply ne_has. Qed.
Lemma str_nat_dot n : has "." (str_nat n) = false.
Proof. apply str_nat_has. intros k I. repeat (destruct I as [<-|I]; [reflexivity|]). destruct I. Qed.
Lemma str_nat_bar n : has "_" (str_nat n) = false.
Proof. apply str_nat_has. intros k I. repeat (destruct I as [<-|I]; [reflexivity|]). destruct I. Qed.
Lemma str_nat_inj n m : str_nat n = str_nat m -> n = m.
Proof.
  unfold str_nat. intros E. apply (f_equal NilZero.uint_of_string) in E. rewrite !NilZero.usu in E by apply to_uint_nonnil. injection E as E.
  apply (f_equal Nat.of_uint) in E. now rewrite !Unsigned.of_to in E.
Qed.
Lemma day_part a b c : has "_" (str_nat a ++ "." ++ str_nat b ++ "." ++ str_nat c) = false.
Proof. cbn [append]. rewrite !has_app. cbn [has]. rewrite !has_app. cbn [has]. rewrite !str_nat_bar. reflexivity. Qed.
Lemma day_inj a b c a' b' c' : str_nat a ++ "." ++ str_nat b ++ "." ++ str_nat c = str_nat a' ++ "." ++ str_nat b' ++ "." ++ str_nat c' ->
  a = a' /\ b = b' /\ c = c'.
Proof.
  cbn [append]. intros E. apply split_left in E as [E1 E]; [|apply str_nat_dot..]. apply split_left in E as [E2 E3]; [|apply str_nat_dot..].
  repeat split; now apply str_nat_inj.
Qed.
Lemma datestr_split t : gen_datestr t =
  (str_nat (mo_year t) ++ "." ++ str_nat (mo_month t) ++ "." ++ str_nat (mo_day t)) ++ String "_" (str_nat (mo_hour t) ++ "." ++ str_nat (mo_minute t) ++ "." ++ str_nat (mo_second t)).
Proof. unfold gen_datestr. cbn [append]. repeat (rewrite app_assoc'; cbn [append]). reflexivity. Qed.
Lemma datestr_inj t t' : gen_datestr t = gen_datestr t' -> t = t'.
Proof.
  rewrite !datestr_split. intros E. apply split_right in E as [E1 E2]; [|apply day_part..]. apply day_inj in E1 as (A & B & C), E2 as (D & F & G).
  destruct t, t'. cbn in *. congruence.
Qed.
Lemma dated_inj a a' t t' : a ++ String "_" (gen_datestr t) = a' ++ String "_" (gen_datestr t') -> a = a' /\ t = t'.
Proof.
  rewrite !datestr_split. intros E.
  set (d := str_nat (mo_year t) ++ "." ++ str_nat (mo_month t) ++ "." ++ str_nat (mo_day t)) in *. set (h := str_nat (mo_hour t) ++ "." ++ str_nat (mo_minute t) ++ "." ++ str_nat (mo_second t)) in *.
  set (d' := str_nat (mo_year t') ++ "." ++ str_nat (mo_month t') ++ "." ++ str_nat (mo_day t')) in *. set (h' := str_nat (mo_hour t') ++ "." ++ str_nat (mo_minute t') ++ "." ++ str_nat (mo_second t')) in *.
  assert (E' : (a ++ String "_" d) ++ String "_" h = (a' ++ String "_" d') ++ String "_" h') by (rewrite !app_assoc'; exact E).
  apply split_right in E' as [E1 E2]; [|apply day_part..]. apply split_right in E1 as [E1 E3]; [|apply day_part..]. split; [exact E1|].
  apply datestr_inj. rewrite !datestr_split. fold d d' h h'. congruence.
Qed.
Lemma extension_inj a a' k k' : a ++ (match k with SReport => ".txt" | SLogger => ".csv" end) = a' ++ (match k' with SReport => ".txt" | SLogger => ".csv" end) -> a = a' /\ k = k'.
Proof.
  intros E. assert (X : forall e, In e [".txt"; ".csv"] -> exists b, e = String "." b /\ has "." b = false).
  { intros e [<-|[<-|[]]]; eexists; split; reflexivity. }
  destruct k, k'; apply (split_right "." a a') in E as [-> E]; try reflexivity; try discriminate; auto.
Qed.

(** ---- the spelling of the language *)
Lemma lower_letter : forall c a b : ascii, In (a, b) [("p", "P"); ("y", "Y"); ("t", "T"); ("h", "H"); ("o", "O"); ("n", "N")]%char ->
  (lower_ascii c = a <-> c = a \/ c = b).
Proof.
  intros c a b H. assert (Q : Ascii.eqb (lower_ascii c) a = Ascii.eqb c a || Ascii.eqb c b).
  { cbn [In] in H. repeat (destruct H as [H|H]; [injection H as <- <-; destruct c as [[] [] [] [] [] [] [] []]; vm_compute; reflexivity|]). destruct H. }
  rewrite <- !Ascii.eqb_eq, <- orb_true_iff, Q. reflexivity.
Qed.
Lemma lower_python lang : lower lang = "python" <-> spelled lang [("p", "P"); ("y", "Y"); ("t", "T"); ("h", "H"); ("o", "O"); ("n", "N")]%char.
Proof.
  assert (G : forall letters s, incl letters [("p", "P"); ("y", "Y"); ("t", "T"); ("h", "H"); ("o", "O"); ("n", "N")]%char ->
    (lower s = fold_right (fun p r => String (fst p) r) EmptyString letters <-> spelled s letters)).
  { induction letters as [|(a, b) l IH]; intros [|c s] I; cbn [lower fold_right spelled fst]; [tauto|split; [discriminate|intros []]|split; [discriminate|intros []]|].
    rewrite <- (lower_letter c a b (I _ (or_introl eq_refl))), <- (IH s (fun x Hx => I x (or_intror Hx))). split.
    - intros [= -> ->]. split; reflexivity.
    - intros [-> ->]. reflexivity. }
  apply (G _ lang (incl_refl _)).
Qed.
