(** C109: the savers an output engine creates from a configuration; C75 continued: the file of a logger.  Model: Model/Outputs.v,
    specification: Spec/OutputsSpec.v. *)
From Coq Require Import String Ascii List ZArith QArith Qcanon Bool Lia.
From Verif.Model Require Import Py Space Optim Call Config Options Output Files Outputs Driver.
From Verif.Spec Require Import ConfigSpec OutputSpec OutputsSpec.
From Verif.Proof Require Import Num Dec ConfigP OptionsP OutputP DriverP OutputsP.
Import ListNotations.
Local Open Scope nat_scope.
Local Open Scope string_scope.
Local Open Scope list_scope.

(** The engine is created exactly when every entry of the section that is a dictionary describes a saver; it then has these savers, in the
    order of the file, with the schedule of their intervals, and has emptied the files of the loggers. *)
Theorem C109_created : forall opens config now items, find config ["output"] = Some (JDict items) -> forall fs ms o,
  output_init opens config now = (fs, Ok (ms, o)) <->
  all_described opens config now 0 (entries items) ms /\ fs = map md_file (filter md_open ms) /\ output_eng (map md_interval ms) = Ok o.
Proof. exact init_ok. Qed.
Print Assumptions C109_created.
(** What an entry describes is unique. *)
Theorem C109_one_meaning : forall opens config t name e m m', describes opens config t name e m -> describes opens config t name e m' -> m = m'.
Proof. intros opens config t name e m m' A B. apply make_saver_ok in A, B. congruence. Qed.
Print Assumptions C109_one_meaning.
(** When it is not created, the files of the loggers before the first entry that describes no saver have been emptied all the same. *)
Theorem C109_failed : forall opens config now items fs e, find config ["output"] = Some (JDict items) -> output_init opens config now = (fs, Raise e) ->
  exists pre name ds post ms, entries items = pre ++ (name, ds) :: post /\ all_described opens config now 0 pre ms /\
    (forall m, ~ describes opens config (now (length pre)) name ds m) /\ fs = map md_file (filter md_open ms).
Proof. exact init_fails. Qed.
Print Assumptions C109_failed.
Theorem C109_no_section : forall opens config now, (forall items, find config ["output"] <> Some (JDict items)) ->
  exists e, output_init opens config now = ([], Raise e).
Proof. exact init_no_section. Qed.
Print Assumptions C109_no_section.
(** A file without the section, in the directory [dir]: a report at the end, and a line in the log at every iteration. *)
Theorem C109_defaults : forall opens new config config' dir project now, proper new -> parser (Some new) = Ok config -> find new ["output"] = None ->
  find config ["experiment-name"] = Some (JStr project) -> with_project config dir = Ok config' ->
  let report := os_join dir ("file-report_" ++ project ++ "_" ++ gen_datestr (now 0) ++ ".txt")%string in
  let log := os_join dir ("Ybest_" ++ project ++ "_" ++ gen_datestr (now 1) ++ ".csv")%string in
  exists fs o, output_init opens config' now =
    (fs, Ok ([mk_made SReport "file-report" (z2q (-1)) report false; mk_made SLogger "Ybest" (z2q 1) log (opens log)], o)).
Proof.
  intros opens new config config' dir project now P H N FN W report log.
  pose proof (untouched _ _ _ P H N) as E. unfold with_project in W. destruct config as [d|?|?|?|?|]; try discriminate. injection W as <-.
  assert (FD : find (JDict (dset "prjpath" (JStr dir) d)) ["prjpath"] = Some (JStr dir)) by (cbn [find]; now rewrite dget_dset_same).
  assert (FP : find (JDict (dset "prjpath" (JStr dir) d)) ["experiment-name"] = Some (JStr project)).
  { cbn [find] in *. now rewrite dget_dset_other by discriminate. }
  assert (FO : find (JDict (dset "prjpath" (JStr dir) d)) ["output"] = find default_config ["output"]).
  { rewrite (proj1 (jget_find default_config "output" _) eq_refl). apply jget_find. rewrite jget_dset by discriminate. rewrite E. reflexivity. }
  set (c := JDict (dset "prjpath" (JStr dir) d)) in *.
  exists (map md_file (filter md_open [mk_made SReport "file-report" (z2q (-1)) report false; mk_made SLogger "Ybest" (z2q 1) log (opens log)])). eexists.
  apply (proj2 (C109_created opens c now _ FO _ _ _)). split; [|split; reflexivity]. split; [reflexivity|].
  intros [|[|j]] name e m A B; cbn in A, B.
  - injection A as <- <-. injection B as <-. constructor; cbn [md_kind md_name md_interval md_file md_open]; try reflexivity.
    + eexists. split; [reflexivity|]. now left.
    + now right.
    + discriminate.
    + exists dir. exists ("file-report_" ++ project ++ "_" ++ gen_datestr (now 0) ++ ".txt")%string. split; [exact FD|]. split; [reflexivity|]. right. split; [reflexivity|]. exists project. split; [exact FP|reflexivity].
    + eauto.
  - injection A as <- <-. injection B as <-. constructor; cbn [md_kind md_name md_interval md_file md_open]; try reflexivity.
    + eexists. split; [reflexivity|]. now left.
    + left. reflexivity.
    + intros _. exists "csv", "ybest". auto.
    + exists dir. exists ("Ybest_" ++ project ++ "_" ++ gen_datestr (now 1) ++ ".csv")%string. split; [exact FD|]. split; [reflexivity|]. right. split; [reflexivity|]. exists project. split; [exact FP|reflexivity].
    + eauto.
  - destruct j; discriminate.
Qed.
Print Assumptions C109_defaults.
(** Where a file is put: below the project's directory, with one slash between, unless its name is an absolute path. *)
Theorem C109_paths : forall dir file, prefix "/" file = false ->
  (forall c, c <> "/"%char -> os_join (dir ++ String c "") file = (dir ++ String c ("/" ++ file))%string) /\
  os_join (dir ++ "/") file = (dir ++ "/" ++ file)%string /\ os_join "" file = file /\ forall abs, os_join dir ("/" ++ abs) = ("/" ++ abs)%string.
Proof. exact join_paths. Qed.
Print Assumptions C109_paths.
(** The driver does not read the section: whatever stands there, it does and builds the same. *)
Theorem C109_driver_ignores_the_section : forall d v A fc (rest : space -> res A), let config := JDict d in let config' := JDict (dset "output" v d) in
  driver_run fc rest config' = driver_run fc rest config /\ get_model config' = get_model config /\ get_acquisition config' = get_acquisition config /\
  get_evaluator config' = get_evaluator config /\ run_time_limit config' = run_time_limit config.
Proof. exact driver_ignores. Qed.
Print Assumptions C109_driver_ignores_the_section.

(** ---------------------------------------------------------------- C75 *)
(** The file of a logger with an integer interval, after any calls of append_iter: nothing before it is due for the first time; then the
    headline, and one line for each history at which it is due. *)
Theorem C75_log_file : forall report opens config now fs ms o ens i m n interval, output_init opens config now = (fs, Ok (ms, o)) ->
  (forall f d, report f d = None) -> loggable n ens ->
  nth_error ms i = Some m -> md_kind m = SLogger -> md_open m = true -> md_interval m = z2q interval ->
  exists lines, log_of ms (append_all (save_of report ms) o ens) i =
      (match filter (due interval) (histories ens) with [] => [] | _ => Headline n :: lines end) /\
    List.Forall2 line_for (filter (due interval) (histories ens)) lines.
Proof.
  intros report opens config now fs ms o ens i m n interval O R L N K P V.
  assert (F : exists items, find config ["output"] = Some (JDict items)).
  { unfold output_init in O. destruct (jget config "output") as [v|] eqn:E; [|discriminate]. apply jget_find in E. destruct v; try discriminate. eauto. }
  destruct F as [items F]. apply (proj1 (C109_created _ _ _ _ F _ _ _)) in O as (_ & _ & O). exact (log_file report ms o ens i m n interval O R L N K P V).
Qed.
Print Assumptions C75_log_file.
(** A logger whose file could not be opened writes nothing and raises nothing. *)
Theorem C75_unopened : forall report ms o i m data, nth_error ms i = Some m -> md_kind m = SLogger -> md_open m = false ->
  log_of ms o i = [] /\ save_of report ms i data = None.
Proof. intros report ms o i m data N K P. split; [exact (log_closed ms o i m N P)|]. unfold save_of. now rewrite N, K, P. Qed.
Print Assumptions C75_unopened.

(** ---------------------------------------------------------------- C61 *)
(** sys.argv has the name of the script as its first entry.  Without a file the script ends in IndexError, not with its message; with one it
    ends in an exception too, and never reaches the code that writes the results. *)
Theorem C61_script : forall F A B read dirname (load : json -> res F) fc (rest : F -> space -> res A) (save : json -> A -> res B) name args,
  (exists e, script read dirname load fc rest save (name :: args) = Raise e) /\
  script read dirname load fc rest save [name] = Raise IndexError /\
  forall save' : json -> A -> res B, script read dirname load fc rest save' (name :: args) = script read dirname load fc rest save (name :: args).
Proof.
  intros F A B read dirname load fc rest save name args. split; [|split; [reflexivity|]]; unfold script; cbn [length Nat.ltb Nat.leb].
  - destruct (nth_error (name :: args) 1) as [f|]; [cbn [bind]|cbn [bind]; eauto]. destruct (parser (read f)) as [c|]; cbn [bind]; [|eauto].
    destruct (with_project c (dirname f)) as [c'|]; cbn [bind]; [|eauto]. destruct (load c') as [obj|]; cbn [bind]; [|eauto].
    destruct (driver_fails fc (rest obj) c') as [e ->]. cbn [bind]. eauto.
  - intros save'. destruct (nth_error (name :: args) 1) as [f|]; [cbn [bind]|reflexivity]. destruct (parser (read f)) as [c|]; cbn [bind]; [|reflexivity].
    destruct (with_project c (dirname f)) as [c'|]; cbn [bind]; [|reflexivity]. destruct (load c') as [obj|]; cbn [bind]; [|reflexivity].
    destruct (driver_fails fc (rest obj) c') as [e ->]. reflexivity.
Qed.
Print Assumptions C61_script.

(** ---------------------------------------------------------------- concrete *)
Definition out_file : json := JDict
  [("experiment-name", JStr "six"); ("output", JDict [("Ybest", JDict [("interval", num 2); ("filename", JStr "best.csv")])])].
Definition noon : nat -> moment := fun _ => mk_moment 2016 5 4 12 0 0.
Definition made_out : list made := [mk_made SReport "file-report" (z2q (-1)) "/p/file-report_six_2016.5.4_12.0.0.txt" false; mk_made SLogger "Ybest" (z2q 2) "/p/best.csv" true].
Definition step_at (n : nat) (final : bool) : entry := mk_entry n (nat2q n) [[nat2q n]] [nat2q (7 - n)] final.
Example C109_nonvacuous : proper out_file /\ exists config config' o, parser (Some out_file) = Ok config /\ with_project config "/p" = Ok config' /\
  output_init (fun _ => true) config' noon = (["/p/best.csv"], Ok (made_out, o)) /\
  (* a format that is not csv *)
  output_init (fun _ => true) (JDict [("prjpath", JStr "/p"); ("experiment-name", JStr "six");
      ("output", JDict [("a", JDict [("type", JStr "logger"); ("interval", num 1); ("format", JStr "CSV"); ("content", JStr "Ybest"); ("filename", JStr "a.csv")]); ("verbosity", JBool true);
                        ("b", JDict [("type", JStr "logger"); ("interval", num 1); ("format", JStr "txt"); ("content", JStr "ybest"); ("filename", JNull)])])]) noon
    = (["/p/a.csv"], Raise AssertionError).
Proof.
  split; [unfold out_file; prove_proper|]. do 3 eexists. split; [vm_compute; reflexivity|]. split; [vm_compute; reflexivity|]. split; vm_compute; reflexivity.
Qed.
Example C109_defaults_nonvacuous : let new := JDict [("experiment-name", JStr "six")] in proper new /\ find new ["output"] = None /\
  exists config config', parser (Some new) = Ok config /\ find config ["experiment-name"] = Some (JStr "six") /\ with_project config "/p" = Ok config'.
Proof. split; [prove_proper|]. split; [reflexivity|]. do 2 eexists. split; [vm_compute; reflexivity|]. split; vm_compute; reflexivity. Qed.
Example C75_log_nonvacuous : loggable 1 [step_at 0 false; step_at 1 false; step_at 2 false; step_at 3 false; step_at 4 true] /\
  exists config config' fs o, parser (Some out_file) = Ok config /\ with_project config "/p" = Ok config' /\ output_init (fun _ => true) config' noon = (fs, Ok (made_out, o)) /\
  log_of made_out (append_all (save_of (fun _ _ => None) made_out) o [step_at 0 false; step_at 1 false; step_at 2 false; step_at 3 false; step_at 4 true]) 1 =
    [Headline 1; Line 1 (nat2q 1) (nat2q 6) [nat2q 1]; Line 3 (nat2q 3) (nat2q 4) [nat2q 3]].
Proof.
  split; [repeat constructor; discriminate|]. do 4 eexists. split; [vm_compute; reflexivity|]. split; [vm_compute; reflexivity|]. split; [vm_compute; reflexivity|]. vm_compute. reflexivity.
Qed.
