(** The optimization loop as a sequence of full iterations followed by one that stops. *)
From Coq Require Import String List ZArith QArith Qcanon Bool Lia.
From Verif.Model Require Import Py Space Design Optim Objective BO.
From Verif.Spec Require Import BOSpec.
From Verif.Proof Require Import Num BOP.
Import ListNotations.
Local Open Scope nat_scope.

Definition with_model {M} (s : st M) (m : M) (p : option mat) (U : list (nat * mat * vec)) : st M :=
  mk_st M (s_X s) (s_Y s) (s_cost s) m p (s_ctx s) (s_num s) (s_cum s) (s_sugg s) (s_ynew s) (s_report s) (s_hist s) (s_tick s) (s_updates s ++ U).

Ltac sproj := cbn [set_X set_Y set_cost set_model set_params set_ctx set_num set_cum set_sugg set_ynew set_report set_world add_update with_model s_X s_Y s_cost s_model s_params s_ctx s_num s_cum s_sugg s_ynew s_report s_hist s_tick s_updates].
Tactic Notation "sproj" "in" "*" := cbn [set_X set_Y set_cost set_model set_params set_ctx set_num set_cum set_sugg set_ynew set_report set_world add_update with_model s_X s_Y s_cost s_model s_params s_ctx s_num s_cum s_sugg s_ynew s_report s_hist s_tick s_updates] in *.
Section Loop.
Context {M : Type}.
Notation env := (env M).
Notation st := (st M).

Lemma vstack_app A B C : vstack A B = Ok C -> C = A ++ B.
Proof. unfold vstack. destruct (widths_agree A B); intros E; [now injection E as <-|discriminate]. Qed.
Lemma vstack_err A B e : vstack A B = Raise e -> e = ValueError.
Proof. unfold vstack. destruct (widths_agree A B); intros E; [discriminate|now injection E as <-]. Qed.

Lemma save_params_spec (E : env) s s1 r : save_params E s = (s1, r) ->
  match r with
  | Ok _ => exists v, e_params E (s_model s) = Some v /\ s1 = set_params s (Some (hist_rows (s_params s) ++ [v]))
  | Raise e => s1 = s /\ (e = ValueError \/ e = AttributeError)
  end.
Proof.
  unfold save_params. destruct (e_params E (s_model s)) as [v|]; [|intros X; injection X as <- <-; auto].
  destruct (s_params s) as [H|] eqn:P.
  - destruct (vstack H [v]) as [H'|e] eqn:V; intros X; injection X as <- <-.
    + apply vstack_app in V. exists v. now subst H'.
    + split; [reflexivity|]. left. now apply vstack_err in V.
  - intros X. injection X as <- <-. now exists v.
Qed.

Lemma mapM_raise {A B} (f : A -> res B) l e : mapM f l = Raise e -> exists a, In a l /\ f a = Raise e.
Proof.
  induction l as [|a l IH]; simpl; [discriminate|]. destruct (f a) eqn:F; simpl.
  - destruct (mapM f l) eqn:G; simpl; [discriminate|]. intros X. injection X as <-. destruct (IH eq_refl) as (x & I & H). eauto.
  - intros X. injection X as <-. eauto.
Qed.
Lemma objective_to_model_err sp x e : objective_to_model sp x = Raise e -> e = IndexError.
Proof.
  unfold objective_to_model. generalize 0. induction (sp_xvars sp) as [|v vs IH]; intros k; cbn [objective_to_model_from]; [discriminate|].
  unfold get at 1. destruct (nth_error x k) as [xk|]; cbn [bind]; [|now intros [= <-]].
  destruct (var_objective_to_model v xk) as [b|e'] eqn:V; cbn [bind].
  - destruct (objective_to_model_from vs (S k) x) eqn:R; cbn [bind]; [discriminate|]. intros [= <-]. eapply IH; eauto.
  - intros [= <-]. unfold var_objective_to_model in V. destruct (x_kind v); try discriminate.
    destruct (py_index _ _); [discriminate|now injection V as <-].
Qed.
Lemma unzip_err sp X e : unzip_inputs sp X = Raise e -> e = IndexError.
Proof.
  unfold unzip_inputs. destruct (has_bandit sp); [discriminate|].
  destruct (mapM (objective_to_model sp) X) eqn:R; cbn [bind]; [discriminate|]. intros [= <-].
  apply mapM_raise in R. destruct R as (a & _ & H). now apply objective_to_model_err in H.
Qed.

(** What an update of the model can do. *)
Lemma update_model_spec (E : env) s s1 r : update_model E s = (s1, r) ->
  exists m p U, s1 = with_model s m p U /\
    (U = [] /\ m = s_model s \/
     exists Xm Ym Y, U = [(s_num s, Xm, Ym)] /\ due (e_interval E) (s_num s) = true /\ e_interval E <> 0%Z /\ s_Y s = Some Y /\ training_data E (s_X s) Y Xm Ym /\
        m = fst (e_update E (s_model s) Xm Ym)) /\
    match r with
    | Ok _ => e_interval E <> 0%Z /\ (exists v, e_params E m = Some v /\ p = Some (hist_rows (s_params s) ++ [v])) /\
              (U = [] -> due (e_interval E) (s_num s) = false)
    | Raise LinAlgError => e_interval E <> 0%Z /\ p = s_params s /\ due (e_interval E) (s_num s) = true /\
         exists Xm Ym, U = [(s_num s, Xm, Ym)] /\ snd (e_update E (s_model s) Xm Ym) = Some LinAlgError
    | Raise _ => p = s_params s
    end.
Proof.
  unfold update_model. destruct (Z.eqb_spec (e_interval E) 0) as [I|I].
  { intros [= <- <-]. exists (s_model s), (s_params s), []. split; [destruct s; unfold with_model; cbn; now rewrite app_nil_r|].
    split; [left; split; reflexivity|reflexivity]. }
  destruct (Z.eqb (Z.of_nat (s_num s) mod e_interval E) 0) eqn:D.
  - destruct (unzip_inputs (e_space E) (s_X s)) as [Xm|e] eqn:UZ.
    2:{ intros [= <- <-]. exists (s_model s), (s_params s), []. split; [destruct s; unfold with_model; cbn; now rewrite app_nil_r|].
        split; [left; split; reflexivity|]. apply unzip_err in UZ. subst e. reflexivity. }
    destruct (s_Y s) as [Y|] eqn:SY.
    2:{ intros [= <- <-]. exists (s_model s), (s_params s), []. split; [destruct s; unfold with_model; cbn in *; now rewrite app_nil_r|].
        split; [left; split; reflexivity|reflexivity]. }
    destruct (normalized (e_norm E) Y) as [Ym|e] eqn:N.
    2:{ intros [= <- <-]. exists (s_model s), (s_params s), []. split; [destruct s; unfold with_model; cbn in *; now rewrite app_nil_r|].
        split; [left; split; reflexivity|]. unfold normalized in N. destruct (e_norm E); [|discriminate]. destruct Y; [|discriminate].
        now injection N as <-. }
    assert (TD : training_data E (s_X s) Y Xm Ym).
    { split; [exact UZ|]. unfold normalized in N. destruct (e_norm E) as [nf|]; [|congruence]. destruct Y; [discriminate|congruence]. }
    destruct (e_update E (s_model (add_update s Xm Ym)) Xm Ym) as [m [e|]] eqn:UP.
    + intros [= <- <-]. exists m, (s_params s), [(s_num s, Xm, Ym)]. split; [reflexivity|].
      change (s_model (add_update s Xm Ym)) with (s_model s) in UP.
      split; [right; exists Xm, Ym, Y; rewrite UP; auto 10|].
      destruct e; try reflexivity. split; [exact I|]. split; [reflexivity|]. split; [exact D|]. exists Xm, Ym. rewrite UP. auto.
    + change (s_model (add_update s Xm Ym)) with (s_model s) in UP.
      intros SP. apply save_params_spec in SP. destruct r as [[]|e].
      * destruct SP as (v & PV & SP). exists m, (Some (hist_rows (s_params s) ++ [v])), [(s_num s, Xm, Ym)].
        split; [exact SP|]. split; [right; exists Xm, Ym, Y; rewrite UP; auto 10|]. split; [exact I|]. split; [now exists v|]. discriminate.
      * destruct SP as [-> [-> | ->]]; exists m, (s_params s), [(s_num s, Xm, Ym)]; (split; [reflexivity|]);
        (split; [right; exists Xm, Ym, Y; rewrite UP; auto 10|reflexivity]).
  - intros SP. apply save_params_spec in SP. destruct r as [[]|e].
    + destruct SP as (v & PV & SP). exists (s_model s), (Some (hist_rows (s_params s) ++ [v])), [].
      split; [rewrite SP; unfold with_model, set_params; now rewrite app_nil_r|]. split; [left; auto|]. split; [exact I|]. split; [now exists v|]. auto.
    + destruct SP as [-> [-> | ->]]; exists (s_model s), (s_params s), []; (split; [destruct s; unfold with_model; cbn; now rewrite app_nil_r|]);
      (split; [left; auto|reflexivity]).
Qed.

Lemma cne_spec (E : env) s p i s1 r : compute_next_evaluations E s p i = (s1, r) -> exists m, s1 = set_model s m.
Proof.
  unfold compute_next_evaluations. destruct (context_manager (e_space E) (s_ctx s)) as [cm|e].
  - destruct (e_batch E _ _ _) as [m r']. intros [= <- <-]. eauto.
  - intros [= <- <-]. exists (s_model s). now destruct s.
Qed.

(** One iteration: None means that the loop goes on. *)
Definition iter (E : env) (o : objective) (mi mt : option Qc) (eps z : Qc) (s : st) : st * option (run unit) :=
  if time_left mt (s_cum s) then
    match update_model E s with
    | (s, Raise LinAlgError) => (s, Some (Some (Ok tt)))
    | (s, Raise e) => (s, Some (Some (Raise e)))
    | (s, Ok _) =>
        if iters_done mi (s_num s) || (Nat.ltb 1 (length (s_X s)) && last_two_close eps (s_X s)) then (s, Some (Some (Ok tt)))
        else
          match compute_next_evaluations E s None None with
          | (s, None) => (s, Some None)
          | (s, Some (Raise e)) => (s, Some (Some (Raise e)))
          | (s, Some (Ok b)) =>
              let s := set_sugg s b in
              match vstack (s_X s) b with
              | Raise e => (s, Some (Some (Raise e)))
              | Ok X' =>
                  match evaluate_objective E o (set_X s X') with
                  | (s, Some (Ok _)) =>
                      let s := set_cum (set_world s (s_hist s) (S (s_tick s))) (e_clock E (s_tick s) - z)%Qc in
                      (set_num s (S (s_num s)), None)
                  | (s, r) => (s, Some r)
                  end
              end
          end
    end
  else (s, Some (Some (Ok tt))).

Lemma loop_iter fuel E o mi mt eps z s :
  loop (S fuel) E o mi mt eps z s =
    match iter E o mi mt eps z s with
    | (s', None) => loop fuel E o mi mt eps z s'
    | (s', Some r) => (s', r)
    end.
Proof.
  cbn [loop]. unfold iter. destruct (time_left mt (s_cum s)); [|reflexivity].
  destruct (update_model E s) as [s1 [[]|e]]; [|destruct e; reflexivity].
  destruct (_ || _); [reflexivity|]. destruct (compute_next_evaluations E s1 None None) as [s2 [[b|e]|]]; [|reflexivity|reflexivity].
  cbn zeta. destruct (vstack _ b) as [X'|e]; [|reflexivity].
  destruct (evaluate_objective E o _) as [s3 [[[]|e]|]]; reflexivity.
Qed.

Inductive steps (E : env) (o : objective) (mi mt : option Qc) (eps z : Qc) : nat -> st -> st -> Prop :=
| steps_0 s : steps E o mi mt eps z 0 s s
| steps_S n s s1 s2 : iter E o mi mt eps z s = (s1, None) -> steps E o mi mt eps z n s1 s2 -> steps E o mi mt eps z (S n) s s2.

Lemma loop_steps E o mi mt eps z : forall fuel s s' r, loop fuel E o mi mt eps z s = (s', r) ->
  exists n s1, steps E o mi mt eps z n s s1 /\
    (n < fuel /\ iter E o mi mt eps z s1 = (s', Some r) \/ n = fuel /\ s' = s1 /\ r = None).
Proof.
  induction fuel as [|fuel IH]; intros s s' r H.
  - injection H as <- <-. exists 0, s. split; [constructor|right; auto].
  - rewrite loop_iter in H. destruct (iter E o mi mt eps z s) as [s1 [r1|]] eqn:I.
    + injection H as <- <-. exists 0, s. split; [constructor|left; split; [lia|exact I]].
    + apply IH in H. destruct H as (n & s2 & Hs & H). exists (S n), s2. split; [econstructor; eauto|].
      destruct H as [[L K]|[-> K]]; [left; split; [lia|exact K]|right; auto].
Qed.

(** A full iteration. *)
Lemma iter_go E o mi mt eps z s s' : iter E o mi mt eps z s = (s', None) ->
  exists m p U s1 b ys cs h t c,
    time_left mt (s_cum s) = true /\
    update_model E s = (s1, Ok tt) /\ s1 = with_model s m p U /\
    iters_done mi (s_num s) = false /\ (Nat.ltb 1 (length (s_X s)) && last_two_close eps (s_X s)) = false /\
    evaluate o (e_clock E) (s_hist s) (s_tick s) b = (h, t, Some (Ok (ys, cs))) /\
    update_cost_model (e_lg E) (e_costfit E) (s_cost s) b cs = (c, Ok tt) /\
    (exists m2, compute_next_evaluations E s1 None None = (set_model s1 m2, Some (Ok b)) /\
     s' = mk_st M (s_X s ++ b) (match s_Y s with Some Y => Some (Y ++ ys) | None => None end) c m2 p (s_ctx s) (S (s_num s))
           (e_clock E t - z)%Qc b (Some ys) (s_report s) h (S t) (s_updates s ++ U)).
Proof.
  unfold iter. destruct (time_left mt (s_cum s)) eqn:TL; [|discriminate].
  destruct (update_model E s) as [s1 [[]|e]] eqn:UM; [|destruct e; discriminate].
  pose proof (update_model_spec E s s1 _ UM) as (m & p & U & -> & HU & HO).
  sproj.
  destruct (iters_done mi (s_num s)) eqn:ID; [discriminate|]. cbn [orb].
  destruct (Nat.ltb 1 (length (s_X s)) && last_two_close eps (s_X s)) eqn:CL; [discriminate|].
  destruct (compute_next_evaluations E _ None None) as [s2 [[b|e]|]] eqn:CN; [|discriminate|discriminate].
  pose proof (cne_spec _ _ _ _ _ _ CN) as (m2 & ->).
  cbn zeta. sproj.
  destruct (vstack (s_X s) b) as [X'|e] eqn:V; [|discriminate]. apply vstack_app in V. subst X'.
  unfold evaluate_objective. sproj.
  destruct (evaluate o (e_clock E) (s_hist s) (s_tick s) b) as [[h t] [[[ys cs]|e]|]] eqn:EV; cbv beta iota;
    [|discriminate|discriminate].
  sproj.
  destruct (update_cost_model (e_lg E) (e_costfit E) (s_cost s) b cs) as [c [[]|e]] eqn:UC; cbv beta iota zeta; [|discriminate].
  intros [= <-]. exists m, p, U, (with_model s m p U), b, ys, cs, h, t, c.
  repeat (split; [first [reflexivity|assumption]|]). exists m2. split; [exact CN|reflexivity].
Qed.

(** How an iteration can end the loop. *)
Lemma iter_stop E o mi mt eps z s s' r : iter E o mi mt eps z s = (s', Some r) ->
  (* the time is over *)
  (time_left mt (s_cum s) = false /\ s' = s /\ r = Some (Ok tt)) \/
  (* the model update ends the run *)
  (exists e, update_model E s = (s', Raise e) /\ time_left mt (s_cum s) = true /\
     r = (if match e with LinAlgError => true | _ => false end then Some (Ok tt) else Some (Raise e))) \/
  (* enough iterations, or the last two rows coincide *)
  (update_model E s = (s', Ok tt) /\ time_left mt (s_cum s) = true /\ r = Some (Ok tt) /\
     (iters_done mi (s_num s) = true \/ (1 < length (s_X s) /\ last_two_close eps (s_X s) = true))) \/
  (* the suggestion fails or never ends *)
  (exists s1 s2 q, update_model E s = (s1, Ok tt) /\ iters_done mi (s_num s) = false /\
     compute_next_evaluations E s1 None None = (s2, q) /\ s_X s' = s_X s /\ s_Y s' = s_Y s /\ s_cost s' = s_cost s /\ s_num s' = s_num s /\
     s_hist s' = s_hist s /\ s_tick s' = s_tick s /\ s_updates s' = s_updates s1 /\ s_params s' = s_params s1 /\ s_report s' = s_report s /\
     (q = None /\ r = None \/ exists e, r = Some (Raise e))) \/
  (* the evaluation fails or never ends *)
  (exists s1 s2 b h t q, update_model E s = (s1, Ok tt) /\ iters_done mi (s_num s) = false /\
     compute_next_evaluations E s1 None None = (s2, Some (Ok b)) /\
     evaluate o (e_clock E) (s_hist s) (s_tick s) b = (h, t, q) /\
     s_X s' = s_X s ++ b /\ s_Y s' = s_Y s /\ s_sugg s' = b /\ s_hist s' = h /\ s_num s' = s_num s /\
     s_updates s' = s_updates s1 /\ s_params s' = s_params s1 /\ s_report s' = s_report s /\
     ((q = None /\ r = None /\ s_cost s' = s_cost s) \/ (exists e, q = Some (Raise e) /\ r = Some (Raise e) /\ s_cost s' = s_cost s) \/
      (exists ys cs e, q = Some (Ok (ys, cs)) /\ r = Some (Raise e) /\ update_cost_model (e_lg E) (e_costfit E) (s_cost s) b cs = (s_cost s', Raise e)))).
Proof.
  unfold iter. destruct (time_left mt (s_cum s)) eqn:TL.
  2:{ intros [= <- <-]. left. auto. }
  destruct (update_model E s) as [s1 [[]|e]] eqn:UM.
  2:{ intros H. right; left. exists e. destruct e; injection H as <- <-; auto. }
  pose proof (update_model_spec E s s1 _ UM) as (m & p & U & -> & HU & HO). intros HH; right; right; revert HH.
  sproj.
  destruct (iters_done mi (s_num s)) eqn:ID.
  { intros [= <- <-]. left. auto. }
  cbn [orb]. destruct (Nat.ltb 1 (length (s_X s)) && last_two_close eps (s_X s)) eqn:CL.
  { intros [= <- <-]. left. apply andb_true_iff in CL. destruct CL as [A B]. apply Nat.ltb_lt in A. auto 10. }
  intros HH; right; revert HH.
  destruct (compute_next_evaluations E _ None None) as [s2 q] eqn:CN.
  pose proof (cne_spec _ _ _ _ _ _ CN) as (m2 & ->).
  destruct q as [[b|e]|].
  2:{ intros [= <- <-]. left. do 3 eexists. split; [reflexivity|]. split; [reflexivity|]. split; [exact CN|]. cbn. repeat (split; [reflexivity|]). right. eauto. }
  2:{ intros [= <- <-]. left. do 3 eexists. split; [reflexivity|]. split; [reflexivity|]. split; [exact CN|]. cbn. repeat (split; [reflexivity|]). left. auto. }
  cbn zeta. sproj.
  destruct (vstack (s_X s) b) as [X'|e] eqn:V.
  2:{ intros [= <- <-]. left. do 3 eexists. split; [reflexivity|]. split; [reflexivity|]. split; [exact CN|]. cbn. repeat (split; [reflexivity|]). right. eauto. }
  apply vstack_app in V. subst X'. intros HH; right; revert HH.
  unfold evaluate_objective. sproj.
  destruct (evaluate o (e_clock E) (s_hist s) (s_tick s) b) as [[h t] q] eqn:EV.
  destruct q as [[[ys cs]|e]|]; cbv beta iota zeta.
  - sproj.
    destruct (update_cost_model (e_lg E) (e_costfit E) (s_cost s) b cs) as [c [[]|e]] eqn:UC; cbv beta iota zeta; [discriminate|].
    intros [= <- <-]. do 6 eexists. split; [reflexivity|]. split; [reflexivity|]. split; [exact CN|]. split; [exact EV|]. repeat (split; [reflexivity|]). right; right. exists ys, cs, e. auto.
  - intros [= <- <-]. do 6 eexists. split; [reflexivity|]. split; [reflexivity|]. split; [exact CN|]. split; [exact EV|]. repeat (split; [reflexivity|]). right; left. eauto.
  - intros [= <- <-]. do 6 eexists. split; [reflexivity|]. split; [reflexivity|]. split; [exact CN|]. split; [exact EV|]. repeat (split; [reflexivity|]). left. auto.
Qed.

End Loop.
