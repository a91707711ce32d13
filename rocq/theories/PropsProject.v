(** C48-C52, C58-C64: configuration, projects, profiles and the command line.

    [o : outside S] holds everything that the commands depend on besides files and databases:
    serde_yaml, the order of directory listings and of hash maps, the environment, the time,
    the catalogue of a database and what SQL statements do; the theorems are for all of them. *)
From Verif Require Import Base Text Types Changes SpecSnapshot SpecChange SpecDiff Diff Sql History SpecHistory HistoryLemmas HistoryProofs HistoryRun
  HistoryClaims HistoryExamples Dbh SpecDb DbLemmas DbRun DbClaims DbProofs DbExamples Expand SpecExpand ExpandLemmas Project
  Definitions SpecDefinitions DefinitionsLemmas DefinitionsExamples World
  SpecProject ProjectLemmas WorldLemmas ProjectProofs ProjectReady ProjectStatus SpecSession ProjectSession WorldExamples.

(** ** C48: environment expansion

    A text is read, in one way only, as single characters and references, and each reference
    is replaced by its value.  The claim fails for variables that are set to bytes which are
    not UTF-8: they count as unset. *)
Theorem C48_expand_reads_partial (beyond : N -> bool) (s : str) :
  exists ps, reads beyond s ps /\
    forall e, expand_envvar beyond (fun n => Unicode <$> e n) s = concat (value e <$> ps).
Proof. exact (expand_reads beyond s). Qed.
Print Assumptions C48_expand_reads_partial.

Theorem C48_one_reading (beyond : N -> bool) (s : str) (ps ps' : list piece) :
  reads beyond s ps -> reads beyond s ps' -> ps = ps'.
Proof. exact (reads_unique beyond s ps ps'). Qed.
Print Assumptions C48_one_reading.

Theorem C48_every_value_refuted :
  exists (e : environment) (n : str), is_Some (e n) /\ name (fun _ => false) n /\
    expand_envvar (fun _ => false) e (L "$" ++ n) = [].
Proof. exact refute_other_bytes. Qed.
Print Assumptions C48_every_value_refuted.

(** Exactly: what is not a text counts as not set. *)
Theorem C48_expand_exact (beyond : N -> bool) (env : environment) (s : str) :
  exists ps, reads beyond s ps /\
    expand_envvar beyond env s = concat (value (fun n => match env n with Some (Unicode t) => Some t | _ => None end) <$> ps).
Proof. exact (expand_any beyond env s). Qed.
Print Assumptions C48_expand_exact.

Example C48_example :
  expand_envvar (fun _ => false) (fun n => Unicode <$> ex_values n) ex_text
  = L "pg://one$DBx/one$DBxx$ $one$DBx {} ${DB" /\
  concat (value ex_values <$> ex_pieces) = L "pg://one$DBx/one$DBxx$ $one$DBx {} ${DB" /\
  concat (written <$> ex_pieces) = ex_text.
Proof. exact ex_text_expands. Qed.

(** ** C58: every text can be written in the configuration

    False: there is no way to write a text that contains a reference. *)
Theorem C58_writable_iff (beyond : N -> bool) (t : str) :
  (exists s, forall e, expand_envvar beyond (fun n => Unicode <$> e n) s = t) <->
  forall before after, t = before ++ after -> ~ refers beyond after.
Proof. exact (writable beyond t). Qed.
Print Assumptions C58_writable_iff.

Theorem C58_writable_refuted :
  exists t : str, forall s, exists e, expand_envvar (fun _ => false) e s <> t.
Proof. exact refute_writable. Qed.
Print Assumptions C58_writable_refuted.

Example C58_example :
  forall e, expand_envvar (fun _ => false) (fun n => Unicode <$> e n) (L "p4$$@x") = L "p4$$@x".
Proof. intros e. reflexivity. Qed.

(** ** C49: the nearest enclosing project is used

    With the configuration of the nearest directory that has one, profiles are as configured.
    It does not fail "only if none has": a file that cannot be read as a configuration hides
    those further out. *)
Theorem C49_nearest_project_partial (st : setting) (fs : filesystem) (cwd : list str) :
  match discover_project st fs cwd with
  | Ret proj =>
      exists dir y, configured st fs cwd dir y /\ base_dir proj = dir /\
        forall name, (forall p, get_profile proj name = Ret p <-> profile_at st fs cwd name p) /\
                     (y !! name = None <-> get_profile proj name = Raise (ProfileNotFound name))
  | Raise (ProjectNotFound _) => forall dir, ~ enclosing fs cwd dir
  | Raise BadConfig =>
      exists dir, nearest fs cwd dir /\
        forall s, fs !! config dir = Some (Bytes s) -> st_parse st s = None
  | _ => False
  end.
Proof. exact (discover_exact st fs cwd). Qed.
Print Assumptions C49_nearest_project_partial.

Theorem C49_no_project_iff (st : setting) (fs : filesystem) (cwd : list str) :
  (exists dir, discover_project st fs cwd = Raise (ProjectNotFound dir)) <-> forall dir, ~ enclosing fs cwd dir.
Proof. exact (discover_none st fs cwd). Qed.
Print Assumptions C49_no_project_iff.

Theorem C49_fails_only_refuted :
  exists st (fs : filesystem) (cwd dir : list str) e,
    enclosing fs cwd dir /\ (exists s, fs !! config dir = Some (Bytes s) /\ is_Some (st_parse st s)) /\
    discover_project st fs cwd = Raise e.
Proof. exact refute_fails_only. Qed.
Print Assumptions C49_fails_only_refuted.

Example C49_example :
  exists proj, discover_project ex_setting (ex_files ex_d5 ex_d0) ex_cwd = Ret proj /\ base_dir proj = [L "work"] /\
    ex_cwd = [L "work"; L "sub"] /\ get_profile proj (L "other") = Ret ex_other.
Proof. exact ex_discovers. Qed.

(** ** C50: init never destroys an existing project

    True if the project's configuration can be read, and of files that init has no business
    with; with a configuration that cannot be read, the configuration and the staged changes
    are overwritten. *)
Theorem C50_init_refuted :
  exists (o : outside (list str)) cwd k fs fs' q v v',
    reads_base o /\ codec o /\ enclosing fs cwd cwd /\
    cmd_init o cwd (k, fs) = (Ret (), (0, fs')) /\
    fs !! q = Some (Bytes (encode_version o v)) /\ v_changes v <> [] /\
    fs' !! q = Some (Bytes (encode_version o v')) /\ v_changes v' = [].
Proof. exact refute_init. Qed.
Print Assumptions C50_init_refuted.

Theorem C50_existing_partial {S : Type} (o : outside S) cwd dir y k fs :
  configured (setting_of o) fs cwd dir y -> cmd_init o cwd (k, fs) = (Ret (), (k, fs)).
Proof. exact (init_configured o cwd dir y k fs). Qed.
Print Assumptions C50_existing_partial.

Theorem C50_init_touches {S : Type} (o : outside S) cwd k fs r k' fs' :
  reads_base o -> exists_dir fs cwd -> cmd_init o cwd (k, fs) = (r, (k', fs')) ->
  unchanged (init_place cwd) fs fs'.
Proof. exact (init_touches o cwd k fs r k' fs'). Qed.
Print Assumptions C50_init_touches.

Theorem C50_init_fresh {S : Type} (o : outside S) cwd k fs r k' fs' :
  reads_base o -> exists_dir fs cwd -> fs !! config cwd = None ->
  (forall q, (cwd ++ [L "database"]) `prefix_of` q -> fs !! q = None) ->
  cmd_init o cwd (k, fs) = (r, (k', fs')) -> forall q n, fs !! q = Some n -> fs' !! q = Some n.
Proof. exact (init_fresh o cwd k fs r k' fs'). Qed.
Print Assumptions C50_init_fresh.

Example C50_example :
  configured ex_setting (ex_files ex_d5 ex_d0) ex_cwd [L "work"] ex_yaml /\ reads_base ex_outside.
Proof. exact (conj (ex_configured ex_d5 ex_d0) ex_reads_base). Qed.

(** ** C51: commands act on the selected profile

    [up] and [status] (and [clone], which cannot be called) use the directories of the default
    profile instead. *)
Theorem C51_up_refuted :
  exists (o : outside (list str)) cwd name p k w w2,
    profile_at (setting_of o) (files w) cwd name p /\ profile_at (setting_of o) (files w2) cwd name p /\
    same_at (p_history p) (files w) (files w2) /\ same_at (p_definitions p) (files w) (files w2) /\
    servers w = servers w2 /\
    (cmd_up o cwd name None (k, w)).1 = Ret () /\ (cmd_up o cwd name None (k, w2)).1 = Ret () /\
    servers (cmd_up o cwd name None (k, w)).2.2 !! p_database_url p <>
    servers (cmd_up o cwd name None (k, w2)).2.2 !! p_database_url p.
Proof. exact refute_up_profile. Qed.
Print Assumptions C51_up_refuted.

Theorem C51_up_without_default_refuted :
  exists (o : outside (list str)) cwd name p k w,
    profile_at (setting_of o) (files w) cwd name p /\
    is_directory (files w) (p_history p) = true /\ reachable (history_at o (p_history p) (files w)) /\
    is_Some (servers w !! p_database_url p) /\
    (cmd_up o cwd name None (k, w)).1 = Raise (ProfileNotFound (L "database")).
Proof. exact refute_up_needs_default. Qed.
Print Assumptions C51_up_without_default_refuted.

Theorem C51_status_refuted :
  exists (o : outside (list str)) cwd name p k w w2 rep rep2,
    profile_at (setting_of o) (files w) cwd name p /\ profile_at (setting_of o) (files w2) cwd name p /\
    same_at (p_history p) (files w) (files w2) /\ same_at (p_definitions p) (files w) (files w2) /\
    servers w = servers w2 /\
    (cmd_status o cwd name (k, w)).1 = Ret rep /\ (cmd_status o cwd name (k, w2)).1 = Ret rep2 /\
    staged rep <> staged rep2.
Proof. exact refute_status_profile. Qed.
Print Assumptions C51_status_refuted.

Theorem C51_stage {S : Type} (o : outside S) cwd name p : local_files o cwd name p (cmd_stage o cwd name).
Proof. exact (stage_local o cwd name p). Qed.
Print Assumptions C51_stage.

Theorem C51_reset {S : Type} (o : outside S) cwd name p : local_files o cwd name p (cmd_reset o cwd name).
Proof. exact (reset_local o cwd name p). Qed.
Print Assumptions C51_reset.

Theorem C51_make {S : Type} (o : outside S) cwd name version p :
  local_files o cwd name p (cmd_make o cwd name version).
Proof. exact (make_local o cwd name version p). Qed.
Print Assumptions C51_make.

Theorem C51_down {S : Type} (o : outside S) cwd name version p k w r k' w' :
  profile_at (setting_of o) (files w) cwd name p -> cmd_down o cwd name version (k, w) = (r, (k', w')) ->
  files w' = files w /\ same_servers (p_database_url p) (servers w) (servers w') /\
  forall w2, profile_at (setting_of o) (files w2) cwd name p ->
    servers w !! p_database_url p = servers w2 !! p_database_url p ->
    exists w2', cmd_down o cwd name version (k, w2) = (r, (k', w2')) /\
      servers w' !! p_database_url p = servers w2' !! p_database_url p.
Proof. exact (down_local o cwd name version p k w r k' w'). Qed.
Print Assumptions C51_down.

(** If both profiles have the same history. *)
Theorem C51_up_partial {S : Type} (o : outside S) cwd name version p dp k w r k' w' :
  profile_at (setting_of o) (files w) cwd name p -> profile_at (setting_of o) (files w) cwd (L "database") dp ->
  p_history dp = p_history p ->
  cmd_up o cwd name version (k, w) = (r, (k', w')) ->
  files w' = files w /\ same_servers (p_database_url p) (servers w) (servers w') /\
  forall w2 dp2, profile_at (setting_of o) (files w2) cwd name p -> profile_at (setting_of o) (files w2) cwd (L "database") dp2 ->
    p_history dp2 = p_history p ->
    same_at (p_history p) (files w) (files w2) ->
    servers w !! p_database_url p = servers w2 !! p_database_url p ->
    exists w2', cmd_up o cwd name version (k, w2) = (r, (k', w2')) /\
      servers w' !! p_database_url p = servers w2' !! p_database_url p.
Proof. exact (up_local o cwd name version p dp k w r k' w'). Qed.
Print Assumptions C51_up_partial.

(** In general: [up] works on the history of the default profile and the database of the selected
    one, [status] on the directories of the default profile and the database of the selected one. *)
Theorem C51_up_exact {S : Type} (o : outside S) cwd name version p dp k w r k' w' :
  profile_at (setting_of o) (files w) cwd name p -> profile_at (setting_of o) (files w) cwd (L "database") dp ->
  cmd_up o cwd name version (k, w) = (r, (k', w')) ->
  files w' = files w /\ same_servers (p_database_url p) (servers w) (servers w') /\
  forall w2 dp2, profile_at (setting_of o) (files w2) cwd name p -> profile_at (setting_of o) (files w2) cwd (L "database") dp2 ->
    p_history dp2 = p_history dp ->
    same_at (p_history dp) (files w) (files w2) ->
    servers w !! p_database_url p = servers w2 !! p_database_url p ->
    exists w2', cmd_up o cwd name version (k, w2) = (r, (k', w2')) /\
      servers w' !! p_database_url p = servers w2' !! p_database_url p.
Proof. exact (up_local_exact o cwd name version p dp k w r k' w'). Qed.
Print Assumptions C51_up_exact.

Theorem C51_status_exact {S : Type} (o : outside S) cwd name p dp k w r k' w' :
  profile_at (setting_of o) (files w) cwd name p -> profile_at (setting_of o) (files w) cwd (L "database") dp ->
  cmd_status o cwd name (k, w) = (r, (k', w')) ->
  w' = w /\
  forall w2 dp2, profile_at (setting_of o) (files w2) cwd name p -> profile_at (setting_of o) (files w2) cwd (L "database") dp2 ->
    p_history dp2 = p_history dp -> p_definitions dp2 = p_definitions dp ->
    same_at (p_history dp) (files w) (files w2) -> same_at (p_definitions dp) (files w) (files w2) ->
    servers w !! p_database_url p = servers w2 !! p_database_url p ->
    cmd_status o cwd name (k, w2) = (r, (k', w2)).
Proof. exact (status_local_exact o cwd name p dp k w r k' w'). Qed.
Print Assumptions C51_status_exact.

Example C51_example :
  profile_at ex_setting (ex_files ex_d5 ex_d0) ex_cwd (L "other") ex_other /\
  profile_at ex_setting (ex_files ex_d5 ex_d0) ex_cwd (L "database") ex_default /\
  (cmd_stage ex_outside ex_cwd (L "other") (1000, ex_world ex_d5 ex_d0)).1 = Ret ().
Proof.
  split; [exact (proj2 (ex_profiles ex_d5 ex_d0))|]. split; [exact (proj1 (ex_profiles ex_d5 ex_d0))|].
  vm_compute. reflexivity.
Qed.

(** ** C52: every advertised subcommand works

    Seven of ten do; clone, print and sync always end in a panic. *)
Theorem C52_every_command_refuted :
  exists c, c ∈ advertised /\ (exists i, i_command i = c /\ is_Some (parse_arguments i)) /\
    forall (S : Type) (o : outside S) cwd i k w, i_command i = c ->
      main o cwd i k w = (Exit 101, w) \/ main o cwd i k w = (Exit 2, w).
Proof. exact refute_every_command. Qed.
Print Assumptions C52_every_command_refuted.

Theorem C52_broken {S : Type} (o : outside S) cwd i k w :
  i_command i ∈ [L "clone"; L "print"; L "sync"] ->
  main o cwd i k w = (Exit 101, w) \/ main o cwd i k w = (Exit 2, w).
Proof. exact (broken_commands o cwd i k w). Qed.
Print Assumptions C52_broken.

Theorem C52_dispatched_partial {S : Type} (o : outside S) cwd i m :
  calls o cwd i m -> i_command i ∉ [L "clone"; L "sync"] ->
  exists s, parse_arguments i = Some s /\ forall k w, dispatch o cwd s i (k, w) = m (k, w).
Proof. exact (dispatched o cwd i m). Qed.
Print Assumptions C52_dispatched_partial.

Theorem C52_unknown {S : Type} (o : outside S) cwd i k w :
  i_command i ∉ advertised -> main o cwd i k w = (Exit 2, w).
Proof. exact (unknown_command o cwd i k w). Qed.
Print Assumptions C52_unknown.

Example C52_example :
  calls ex_outside ex_dir (Invocation (L "up") None (Some (L "x"))) (cmd_up ex_outside ex_dir (L "database") (Some (L "x"))) /\
  (main ex_outside ex_dir (Invocation (L "up") None None) 1000 ws3).1 = Exit 0 /\
  ws_rows (main ex_outside ex_dir (Invocation (L "up") None None) 1000 ws3).2 = Some [L "init"; L "20240101_120000-first"].
Proof. split; [exact (calls_up ex_outside ex_dir None (Some (L "x")))|]. split; vm_compute; reflexivity. Qed.

(** ** C59: environment variables work in every field of a profile

    In the URL and the directories ([profile_at] says so, and C49 that it is what is used);
    not in the metadata schema. *)
Theorem C59_every_field_refuted :
  exists st (fs : filesystem) (cwd dir : list str) y yp name p,
    configured st fs cwd dir y /\ y !! name = Some yp /\ profile_at st fs cwd name p /\
    expand st (y_metadata_schema yp) = L "meta" /\ p_metadata_schema p = L "$SCHEMA".
Proof. exact refute_schema_expanded. Qed.
Print Assumptions C59_every_field_refuted.

Theorem C59_expanded_partial (st : setting) (fs : filesystem) (cwd dir : list str) y name yp proj :
  configured st fs cwd dir y -> y !! name = Some yp -> discover_project st fs cwd = Ret proj ->
  exists p, get_profile proj name = Ret p /\
    p_database_url p = expand st (y_database_url yp) /\
    p_history p = join dir (expand st (y_history yp)) /\
    p_definitions p = join dir (expand st (y_definitions yp)).
Proof. exact (profile_expanded st fs cwd dir y name yp proj). Qed.
Print Assumptions C59_expanded_partial.

(** What every field of the profile is, for every document and environment: the
    schema is the one field taken as written, so it has its expanded value exactly
    when expanding it changes nothing. *)
Theorem C59_fields_exact (st : setting) (fs : filesystem) (cwd dir : list str) y name yp proj :
  configured st fs cwd dir y -> y !! name = Some yp -> discover_project st fs cwd = Ret proj ->
  exists p, get_profile proj name = Ret p /\
    p_database_url p = expand st (y_database_url yp) /\
    p_metadata_schema p = y_metadata_schema yp /\
    (p_metadata_schema p = expand st (y_metadata_schema yp) <->
       expand st (y_metadata_schema yp) = y_metadata_schema yp) /\
    p_history p = join dir (expand st (y_history yp)) /\
    p_definitions p = join dir (expand st (y_definitions yp)).
Proof. exact (profile_fields st fs cwd dir y name yp proj). Qed.
Print Assumptions C59_fields_exact.

Example C59_example :
  profile_at ex_setting schema_files [] (L "database") schema_profile /\
  p_database_url schema_profile = L "postgresql://one".
Proof. split; [exact schema_profile_at|reflexivity]. Qed.

(** ** C60: the exit status tells whether the command failed

    It does not: an error that is displayed ends in status 0. *)
Theorem C60_exit_status_refuted :
  exists (o : outside (list str)) cwd i s k w e,
    parse_arguments i = Some s /\ (dispatch o cwd s i (k, w)).1 = Raise e /\ (main o cwd i k w).1 = Exit 0.
Proof. exact refute_exit_status. Qed.
Print Assumptions C60_exit_status_refuted.

Theorem C60_exit_status_exact {S : Type} (o : outside S) cwd i k w s r k' w' :
  parse_arguments i = Some s -> dispatch o cwd s i (k, w) = (r, (k', w')) ->
  (main o cwd i k w).2 = w' /\
  ((main o cwd i k w).1 = Exit 0 <-> r = Ret () \/ exists e, r = Raise e /\ forall x, e <> SnapshotFailed x) /\
  ((main o cwd i k w).1 = Exit 101 <-> r = Abort \/ exists x, r = Raise (SnapshotFailed x)).
Proof. exact (main_end o cwd i k w s r k' w'). Qed.
Print Assumptions C60_exit_status_exact.

(** ** C61: every error is displayed

    Not those of a snapshot: displaying them is not implemented, and panics.  (All others:
    C60_exit_status_exact.) *)
Theorem C61_displayed_refuted :
  exists (o : outside (list str)) cwd i s k w e,
    parse_arguments i = Some s /\ (dispatch o cwd s i (k, w)).1 = Raise (SnapshotFailed e) /\
    (main o cwd i k w).1 = Exit 101.
Proof. exact refute_displayed. Qed.
Print Assumptions C61_displayed_refuted.

(** ** C62: init leaves a project that is ready for use *)
Theorem C62_ready {S : Type} (o : outside S) cwd k fs :
  reads_base o -> codec o -> reads_back (documents_of o) -> exists_dir fs cwd ->
  (forall dir, ~ enclosing fs cwd dir) ->
  (forall q, config cwd `prefix_of` q -> fs !! q = None) ->
  (forall q, (cwd ++ [L "database"]) `prefix_of` q -> fs !! q = None) ->
  exists fs' db, cmd_init o cwd (12 + 2 * length cwd + k, fs) = (Ret (), (k, fs')) /\
    unchanged (init_place cwd) fs fs' /\
    profile_at (setting_of o) fs' cwd (L "database") (base_profile cwd) /\
    is_directory fs' (history_of cwd) = true /\
    reachable (history_at o (history_of cwd) fs') /\
    calculate_snapshot (history_at o (history_of cwd) fs') (L "stage") = Ret db /\
    load_definitions o (below (definitions_of cwd) fs') = Ret db.
Proof. exact (init_ready o cwd k fs). Qed.
Print Assumptions C62_ready.

Example C62_example :
  reads_base ex_outside /\ codec ex_outside /\ reads_back (documents_of ex_outside) /\ exists_dir (files ex_start) ex_dir /\
  (forall dir, ~ enclosing (files ex_start) ex_dir dir) /\
  (forall q, config ex_dir `prefix_of` q -> files ex_start !! q = None) /\
  (forall q, (ex_dir ++ [L "database"]) `prefix_of` q -> files ex_start !! q = None).
Proof. exact ex_start_fresh. Qed.

(** ** C63: status tells the truth *)
Theorem C63_status {S : Type} (o : outside S) cwd name p dp k w r k' w' t :
  profile_at (setting_of o) (files w) cwd name p -> profile_at (setting_of o) (files w) cwd (L "database") dp ->
  is_directory (files w) (p_history dp) = true ->
  reachable (history_at o (p_history dp) (files w)) ->
  load_definitions o (below (p_definitions dp) (files w)) = Ret t ->
  cmd_status o cwd name (k, w) = (r, (k', w')) ->
  w' = w /\ (r <> Killed ->
  exists rep stage source, r = Ret rep /\
    stored (history_at o (p_history dp) (files w)) (L "stage") stage /\
    calculate_snapshot (history_at o (p_history dp) (files w)) (L "stage") = Ret source /\
    staged rep = v_changes stage /\
    not_staged rep = compare_diff (order_source o) (order_target o) source t /\
    (not_staged rep = [] <-> db_same source t) /\
    (forall db tbl row,
       schema_ident o (p_metadata_schema p) = Some (p_metadata_schema p) ->
       servers w !! p_database_url p = Some db -> has_table db (p_metadata_schema p) tbl ->
       NoDup (r_order <$> t_rows tbl) -> newest (t_rows tbl) row ->
       on_version rep = Ret (row_name row))).
Proof. exact (status_exact o cwd name p dp k w r k' w' t). Qed.
Print Assumptions C63_status.

Example C63_example :
  profile_at ex_setting (ex_files ex_d1 ex_d0) ex_cwd (L "other") ex_other /\
  profile_at ex_setting (ex_files ex_d1 ex_d0) ex_cwd (L "database") ex_default /\
  is_directory (ex_files ex_d1 ex_d0) (p_history ex_default) = true /\
  reachable (history_at ex_outside (p_history ex_default) (ex_files ex_d1 ex_d0)) /\
  load_definitions ex_outside (below (p_definitions ex_default) (ex_files ex_d1 ex_d0)) = Ret database_new.
Proof. exact ex_status. Qed.

(** ** C64: the history and the database of a project stay consistent

    In any sequence of commands, run from anywhere in the project, with the definitions edited
    in between: the history directory is always one that C26-C35 describe, and the version
    table records a path in it. *)
Theorem C64_session_partial {S : Type} (o : outside S) dir w :
  reads_base o -> codec o -> workspace o dir w ->
  reachable (history_at o (history_of dir) (files w)) /\
  exists db, servers w !! new_url = Some db /\
    together (statement o) (schema_ident o) new_schema (fun n => n <> L "stage")
      (history_at o (history_of dir) (files w)) db /\
    forall t, schema_ident o new_schema = Some new_schema -> has_table db new_schema t ->
      exists cur names, newest (t_rows t) cur /\
        v_name <$> (r_version <$> t_rows t) = L "init" :: names /\
        SpecHistory.path (history_at o (history_of dir) (files w)) (L "init") names (v_name (r_version cur)) /\
        forall r, r ∈ t_rows t -> stored (history_at o (history_of dir) (files w)) (v_name (r_version r)) (r_version r).
Proof. exact (workspace_consistent o dir w). Qed.
Print Assumptions C64_session_partial.

Theorem C64_stage_refines {S : Type} (o : outside S) cwd name p k w r k' w' :
  codec o -> profile_at (setting_of o) (files w) cwd name p -> is_directory (files w) (p_history p) = true ->
  cmd_stage o cwd name (k, w) = (r, (k', w')) ->
  stage (listing_of o) (order_source o) (order_target o)
    (load_definitions o (below (p_definitions p) (files w))) (k, history_at o (p_history p) (files w))
  = (r, (k', history_at o (p_history p) (files w'))).
Proof. exact (stage_refines o cwd name p k w r k' w'). Qed.
Print Assumptions C64_stage_refines.

Theorem C64_reset_refines {S : Type} (o : outside S) cwd name p k w r k' w' :
  codec o -> profile_at (setting_of o) (files w) cwd name p -> is_directory (files w) (p_history p) = true ->
  cmd_reset o cwd name (k, w) = (r, (k', w')) ->
  reset (listing_of o) (k, history_at o (p_history p) (files w))
  = (r, (k', history_at o (p_history p) (files w'))).
Proof. exact (reset_refines o cwd name p k w r k' w'). Qed.
Print Assumptions C64_reset_refines.

Theorem C64_make_refines {S : Type} (o : outside S) cwd name version p k w r k' w' :
  codec o -> profile_at (setting_of o) (files w) cwd name p -> is_directory (files w) (p_history p) = true ->
  cmd_make o cwd name version (k, w) = (r, (k', w')) ->
  make (listing_of o) (now o) version (k, history_at o (p_history p) (files w))
  = (r, (k', history_at o (p_history p) (files w'))).
Proof. exact (make_refines o cwd name version p k w r k' w'). Qed.
Print Assumptions C64_make_refines.

Example C64_example :
  reads_base ex_outside /\ codec ex_outside /\ workspace ex_outside ex_dir ws4 /\
  schema_ident ex_outside new_schema = Some new_schema /\
  ws_rows ws4 = Some [L "init"; L "20240101_120000-first"].
Proof.
  split; [exact ex_reads_base|]. split; [exact ex_codec|]. split; [exact ws4_workspace|].
  split; [vm_compute; reflexivity|exact ws4_rows].
Qed.
