(** C104: output files and objectives given as files.  Model: Model/Files.v. *)
From Coq Require Import String Ascii List Bool Arith Lia.
From Verif.Model Require Import Py Space Files.
From Verif.Spec Require Import FilesSpec.
From Verif.Proof Require Import FilesP.
Import ListNotations.
Local Open Scope nat_scope.
Local Open Scope string_scope.
Local Open Scope list_scope.

(** In one experiment two savers without a file name of their own write to the same file only if they have the same name and kind and were
    created in the same second. *)
Theorem C104_files_differ : forall k k' name name' project t t',
  saver_file k name project None t = saver_file k' name' project None t' -> k = k' /\ name = name' /\ t = t'.
Proof.
  intros k k' name name' prj t t' E. unfold saver_file in E. 
  assert (A : forall n k t, (n ++ "_" ++ prj ++ "_" ++ gen_datestr t ++ (match k with SReport => ".txt" | SLogger => ".csv" end))%string =
    (((n ++ String "_" prj) ++ String "_" (gen_datestr t)) ++ (match k with SReport => ".txt" | SLogger => ".csv" end))%string)
    by (intros; rewrite !app_assoc'; reflexivity).
  rewrite !A in E. apply extension_inj in E as [E K]. apply dated_inj in E as [E T]. apply app_inv_tail' in E. auto.
Qed.
Print Assumptions C104_files_differ.
(** The same moment is written the same way only once: no two moments share their text. *)
Theorem C104_moments_differ : forall t t', gen_datestr t = gen_datestr t' -> t = t'.
Proof. exact datestr_inj. Qed.
Print Assumptions C104_moments_differ.
(** Two experiments can share a file: the name of the saver and of the experiment are only joined by an underscore; and a file name given in
    the configuration is used by every run. *)
Theorem C104_files_differ_refuted : forall k t, saver_file k "a_b" "c" None t = saver_file k "a" "b_c" None t /\
  forall k' name name' project project' f t', saver_file k name project (Some f) t = saver_file k' name' project' (Some f) t'.
Proof. intros k t. split; reflexivity. Qed.
Print Assumptions C104_files_differ_refuted.

(** With an absolute path to an existing directory and a language that says python in any case, the objective is the function of the file
    that has the name of the file; the working directory has been changed to the project's. *)
Theorem C104_loads : forall F (w : world F) cwd dir file lang m f,
  w_dir w dir = true -> lower lang = "python" -> w_run w (dir ++ [(file ++ ".py")%string]) = Ok m -> lookup file m = Ok f ->
  load_objective w cwd (Some (mk_path true dir)) (Some (file ++ ".py")%string) (Some lang) = (dir, Ok f).
Proof.
  intros F w cwd dir file lang m f D L R K. unfold load_objective. cbn [resolve p_abs p_parts]. unfold resolve. cbn [p_abs p_parts join]. rewrite D.
  rewrite L. cbn [String.eqb].
  assert (LEN : String.length (file ++ ".py") - 3 = String.length file) by (rewrite length_app'; cbn; lia).
  assert (S1 : forall s t, substring 0 (String.length s) (s ++ t) = s) by (induction s as [|c s IH]; intros t; cbn; [destruct t; reflexivity|now rewrite IH]).
  assert (S2 : forall s t, substring (String.length s) (String.length t) (s ++ t) = t).
  { induction s as [|c s IH]; intros t; cbn; [|apply IH]. clear. induction t as [|c t IH]; [reflexivity|]. cbn. now rewrite IH. }
  assert (EP : ends_py (file ++ ".py") = true).
  { unfold ends_py. rewrite LEN. change 3 with (String.length ".py") at 2. rewrite S2. rewrite length_app'. cbn [String.length]. destruct (Nat.leb_spec 3 (String.length file + 3)); [reflexivity|lia]. }
  rewrite EP. cbn [join p_abs p_parts]. rewrite R. cbn [bind]. unfold stem. rewrite LEN, S1. now rewrite K.
Qed.
Print Assumptions C104_loads.
(** A relative path is followed twice: the file is looked for below itself. *)
Theorem C104_relative_path_refuted : forall F (w : world F) cwd parts file lang, w_dir w (cwd ++ parts) = true -> ends_py file = true -> lower lang = "python" ->
  load_objective w cwd (Some (mk_path false parts)) (Some file) (Some lang) =
    (cwd ++ parts, match w_run w (cwd ++ parts ++ parts ++ [file]) with Ok m => lookup (stem file) m | Raise e => Raise e end).
Proof.
  intros F w cwd parts file lang D E L. unfold load_objective, resolve. cbn [p_abs p_parts join]. rewrite D, L. cbn [String.eqb]. rewrite E. cbn. now rewrite <- app_assoc.
Qed.
Print Assumptions C104_relative_path_refuted.
(** Every other language ends in UnboundLocalError, a missing entry or a file of another name in AssertionError or KeyError; from the
    language on, the working directory has been changed already. *)
Theorem C104_refused : forall F (w : world F) cwd prj file, w_dir w (resolve cwd prj) = true ->
  (forall lang, lower lang <> "python" -> load_objective w cwd (Some prj) (Some file) (Some lang) = (resolve cwd prj, Raise UnboundLocalError)) /\
  load_objective w cwd (Some prj) (Some file) None = (resolve cwd prj, Raise KeyError) /\
  (forall lang, lower lang = "python" -> ends_py file = false -> load_objective w cwd (Some prj) (Some file) (Some lang) = (resolve cwd prj, Raise AssertionError)) /\
  (forall l, load_objective w cwd None (Some file) l = (cwd, Raise AssertionError)) /\
  (forall l, load_objective w cwd (Some prj) None l = (cwd, Raise AssertionError)).
Proof.
  intros F w cwd prj file D. unfold load_objective. rewrite D. repeat split.
  - intros lang N. apply String.eqb_neq in N. now rewrite N.
  - intros lang E N. rewrite E. cbn [String.eqb]. now rewrite N.
Qed.
Print Assumptions C104_refused.
(** A directory that does not exist is reported before anything is changed. *)
Theorem C104_missing_directory : forall F (w : world F) cwd prj file lang, w_dir w (resolve cwd prj) = false ->
  load_objective w cwd (Some prj) (Some file) lang = (cwd, Raise OSError).
Proof. intros F w cwd prj file lang D. unfold load_objective. now rewrite D. Qed.
Print Assumptions C104_missing_directory.
(** The spellings of the language that are accepted: each letter of "python" in lower or in upper case, and no others. *)
Theorem C104_language : forall lang, lower lang = "python" <->
  spelled lang [("p", "P"); ("y", "Y"); ("t", "T"); ("h", "H"); ("o", "O"); ("n", "N")]%char.
Proof. exact lower_python. Qed.
Print Assumptions C104_language.
(** The function must be called like the file: a file whose module has no such entry raises KeyError. *)
Theorem C104_function_name : forall F (w : world F) cwd dir file m r, w_dir w dir = true -> w_run w (dir ++ [(file ++ ".py")%string]) = Ok m ->
  (forall k v, In (k, v) m -> k <> file) -> load_objective w cwd (Some (mk_path true dir)) (Some (file ++ ".py")%string) (Some "python") = r -> r = (dir, Raise KeyError).
Proof.
  intros F w cwd dir file m r D R K <-.
  assert (LK : lookup file m = Raise KeyError).
  { clear R. induction m as [|(k, v) m IH]; [reflexivity|]. cbn [lookup]. destruct (String.eqb_spec file k) as [->|]; [destruct (K k v (or_introl eq_refl) eq_refl)|].
    apply IH. intros k' v' I. apply (K k' v'). now right. }
  unfold load_objective, resolve. cbn [p_abs p_parts join]. rewrite D.
  assert (LEN : String.length (file ++ ".py") - 3 = String.length file) by (rewrite length_app'; cbn; lia).
  assert (S1 : forall s t, substring 0 (String.length s) (s ++ t) = s) by (induction s as [|c s IH]; intros t; cbn; [destruct t; reflexivity|now rewrite IH]).
  change (String.eqb (lower "python") "python") with true. cbn [join p_abs p_parts]. destruct (ends_py (file ++ ".py")) eqn:EP.
  - rewrite R. cbn [bind]. unfold stem. rewrite LEN, S1, LK. reflexivity.
  - exfalso. unfold ends_py in EP. rewrite LEN in EP. assert (S2 : forall s t, substring (String.length s) (String.length t) (s ++ t) = t).
    { induction s as [|c s IH]; intros t; cbn; [|apply IH]. clear. induction t as [|c t IH]; [reflexivity|]. cbn. now rewrite IH. }
    change 3 with (String.length ".py") in EP at 2. rewrite S2 in EP. rewrite length_app' in EP. cbn [String.length] in EP. destruct (Nat.leb_spec 3 (String.length file + 3)); [discriminate EP|lia].
Qed.
Print Assumptions C104_function_name.

Example C104_nonvacuous :
  let w := mk_world (F := nat) (fun d => match d with ["home"] | ["home"; "p"] => true | _ => false end)
    (fun f => match f with ["home"; "p"; "branin.py"] => Ok [("np", 0); ("branin", 7)] | _ => Raise OSError end) in
  load_objective w ["home"] (Some (mk_path true ["home"; "p"])) (Some "branin.py") (Some "PYTHON") = (["home"; "p"], Ok 7) /\
  load_objective w ["home"] (Some (mk_path false ["p"])) (Some "branin.py") (Some "PYTHON") = (["home"; "p"], Raise OSError) /\
  lower "PYTHON" = "python" /\ lower "Matlab" <> "python" /\ saver_file SLogger "Ybest" "e" None (mk_moment 2016 9 8 7 6 5) = "Ybest_e_2016.9.8_7.6.5.csv".
Proof. cbv zeta. do 3 (split; [vm_compute; reflexivity|]). split; [discriminate|vm_compute; reflexivity]. Qed.
