(** A nested call that does not return. *)
From Coq Require Import String List ZArith QArith Qcanon Bool Lia.
From Verif.Model Require Import Py Space Design Optim Objective BO Reentrant.
From Verif.Spec Require Import BOSpec ReentrantSpec.
From Verif.Proof Require Import Num Dec BOP ReentrantP.
Import ListNotations.
Local Open Scope nat_scope.

Lemma eval_rows_grows f clock : forall rows h t, exists l, fst (fst (eval_rows f clock h t rows)) = h ++ l.
Proof.
  induction rows as [|x rows IH]; intros h t; cbn [eval_rows]; [exists []; now rewrite app_nil_r|].
  destruct (f h x) as [y|e]; [|exists [x]; reflexivity]. destruct (IH (h ++ [x]) (S (S t))) as [l K].
  destruct (eval_rows f clock (h ++ [x]) (S (S t)) rows) as [[h' t'] [r|e]]; cbn [fst] in *; exists (x :: l); rewrite K, <- app_assoc; reflexivity.
Qed.
Lemma eval_rows_first f clock x rows h t : exists l, fst (fst (eval_rows f clock h t (x :: rows))) = h ++ x :: l.
Proof.
  cbn [eval_rows]. destruct (f h x) as [y|e]; [|exists []; reflexivity]. destruct (eval_rows_grows f clock rows (h ++ [x]) (S (S t))) as [l K].
  destruct (eval_rows f clock (h ++ [x]) (S (S t)) rows) as [[h' t'] [r|e]]; cbn [fst] in *; exists l; rewrite K, <- app_assoc; reflexivity.
Qed.
Lemma skipn_past {A} (h l : list A) : skipn (length h) (h ++ l) = l.
Proof. induction h as [|a h IH]; [reflexivity | exact IH]. Qed.

Theorem during_waits M (E : env M) o ask s x r c p i : o_procs o = 1 -> ask (s_hist s) x = Some (c, p, i) ->
  snd (suggest_next_locations E s c p i) = None -> snd (during E o ask s (x :: r)) = false.
Proof.
  intros P A W. unfold during. rewrite (evaluate_seq _ _ _ _ _ P). unfold eval_func.
  destruct (eval_rows_first (o_fun o) (e_clock E) x r (s_hist s) (s_tick s)) as [l K].
  destruct (eval_rows (o_fun o) (e_clock E) (s_hist s) (s_tick s) (x :: r)) as [[h t] [v|e]]; cbn [fst] in K; subst h; rewrite skipn_past; cbn [meddle]; rewrite A;
    destruct (suggest_next_locations E s c p i) as [s1 [q|]]; (discriminate || reflexivity).
Qed.
Theorem evaluate_waits M (E : env M) o ask s x r c p i : o_procs o = 1 -> s_sugg s = x :: r -> ask (s_hist s) x = Some (c, p, i) ->
  snd (suggest_next_locations E s c p i) = None -> snd (evaluate_objective_in E o ask s) = None.
Proof.
  intros P Sg A W. unfold evaluate_objective_in. rewrite Sg. pose proof (during_waits M E o ask s x r c p i P A W) as D.
  destruct (during E o ask s (x :: r)) as [s1 [|]]; [discriminate | reflexivity].
Qed.
