(** Property theorems C67 to C70: sequences of commands; C13 and C14 for a directory of files. *)
From Verif Require Import Base Text Types Changes SpecSnapshot SpecMerge Diff SpecDiff Load Node Yaml Ddl SpecDefinition
  SnapshotExamples Sql History SpecHistory HistoryExamples Dbh SpecDb DbExamples Expand Project Definitions SpecDefinitions
  DefinitionsLemmas DefinitionsExamples World SpecProject SpecSession ProjectFlow ProjectClone WorldExamples FlowExamples.

(** ** C13, C14: a directory of definition files

    What is loaded depends on the texts of the files and on how YAML is read, on nothing else;
    and it is exactly what the files define. *)
Theorem C13_directory dc dc' fs d :
  dc_read dc' = dc_read dc -> load_definition_files dc fs = Ret d -> load_definition_files dc' fs = Ret d.
Proof. exact (load_reader dc dc' fs d). Qed.
Print Assumptions C13_directory.

Theorem C14_directory_exact dc fs d :
  load_definition_files dc fs = Ret d <->
  fs !! [] = Some Directory /\ exists l, defined dc fs l /\ apart l /\ wf_db d /\
    contains_exactly (map_to_list l).*2 d.
Proof. exact (load_definition_files_exact dc fs d). Qed.
Print Assumptions C14_directory_exact.

Example C14_directory_example :
  exists t, load_definition_files (documents_of ex_outside) (below (definitions_of ex_dir) (files ws1)) = Ret t.
Proof. exact ws1_loads. Qed.

(** ** C67: a new project is clean *)
Theorem C67_new_project_clean {S : Type} (o : outside S) cwd k fs :
  reads_base o -> codec o -> reads_back (documents_of o) -> exists_dir fs cwd ->
  (forall dir, ~ enclosing fs cwd dir) ->
  (forall q, config cwd `prefix_of` q -> fs !! q = None) ->
  (forall q, (cwd ++ [L "database"]) `prefix_of` q -> fs !! q = None) ->
  exists fs', cmd_init o cwd (12 + 2 * length cwd + k, fs) = (Ret (), (k, fs')) /\
    forall o' sv, same_reader o o' ->
      (forall k1 r k2 w, cmd_status o' cwd (L "database") (k1, World fs' sv) = (r, (k2, w)) -> r <> Killed ->
         w = World fs' sv /\ exists rep, r = Ret rep /\ staged rep = [] /\ not_staged rep = []) /\
      (forall k1 r k2 w, cmd_stage o' cwd (L "database") (k1, World fs' sv) = (r, (k2, w)) -> r <> Killed ->
         w = World fs' sv /\ r = Ret ()).
Proof. exact (init_clean o cwd k fs). Qed.
Print Assumptions C67_new_project_clean.

Example C67_example :
  reads_base ex_outside /\ codec ex_outside /\ reads_back (documents_of ex_outside) /\ exists_dir (files ex_start) ex_dir /\
  (forall dir, ~ enclosing (files ex_start) ex_dir dir) /\
  (forall q, config ex_dir `prefix_of` q -> files ex_start !! q = None) /\
  (forall q, (ex_dir ++ [L "database"]) `prefix_of` q -> files ex_start !! q = None).
Proof. exact ex_start_fresh. Qed.

(** ** C68: what is staged is no longer to be staged

    Exactly if the new sequences have no owners; staging twice is then the same as once. *)
Theorem C68_stage_status {S : Type} (o : outside S) (o1 o2 : outside S) dir w cwd1 k k1 w1 cwd2 k2 r k2' w2 t :
  reads_base o -> codec o ->
  workspace o dir w -> same_reader o o1 -> same_reader o o2 ->
  nearest (files w) cwd1 dir -> nearest (files w1) cwd2 dir ->
  load_definitions o (below (definitions_of dir) (files w)) = Ret t ->
  cmd_stage o1 cwd1 (L "database") (k, w) = (Ret (), (k1, w1)) ->
  cmd_status o2 cwd2 (L "database") (k2, w1) = (r, (k2', w2)) -> r <> Killed ->
  exists rep source stg, r = Ret rep /\
    calculate_snapshot (history_at o (history_of dir) (files w)) (L "stage") = Ret source /\
    stored (history_at o (history_of dir) (files w)) (L "stage") stg /\
    staged rep = v_changes stg ++ compare_diff (order_source o1) (order_target o1) source t /\
    (not_staged rep = [] <-> new_sequences_unowned source t).
Proof. exact (fun Hb Hc => stage_status o Hb Hc o1 o2 dir w cwd1 k k1 w1 cwd2 k2 r k2' w2 t). Qed.
Print Assumptions C68_stage_status.

Theorem C68_stage_again_partial {S : Type} (o : outside S) (o1 o2 : outside S) dir w cwd1 k k1 w1 cwd2 k2 r k2' w2 t source :
  reads_base o -> codec o ->
  workspace o dir w -> same_reader o o1 -> same_reader o o2 ->
  nearest (files w) cwd1 dir -> nearest (files w1) cwd2 dir ->
  load_definitions o (below (definitions_of dir) (files w)) = Ret t ->
  calculate_snapshot (history_at o (history_of dir) (files w)) (L "stage") = Ret source -> new_sequences_unowned source t ->
  cmd_stage o1 cwd1 (L "database") (k, w) = (Ret (), (k1, w1)) ->
  cmd_stage o2 cwd2 (L "database") (k2, w1) = (r, (k2', w2)) -> r <> Killed -> r = Ret () /\ w2 = w1.
Proof. exact (fun Hb Hc => stage_again o Hb Hc o1 o2 dir w cwd1 k k1 w1 cwd2 k2 r k2' w2 t source). Qed.
Print Assumptions C68_stage_again_partial.

(** A sequence with an owner remains to be staged, and is staged again. *)
Theorem C68_stage_status_refuted :
  exists (o : outside (list str)) dir w k k1 w1 t rep,
    workspace o dir w /\ nearest (files w) dir dir /\
    load_definitions o (below (definitions_of dir) (files w)) = Ret t /\
    cmd_stage o dir (L "database") (k, w) = (Ret (), (k1, w1)) /\
    (cmd_status o dir (L "database") (k, w1)).1 = Ret rep /\ not_staged rep <> [].
Proof. exact refute_stage_status. Qed.
Print Assumptions C68_stage_status_refuted.

Theorem C68_stage_again_refuted :
  exists (o : outside (list str)) dir w k k1 w1 k2 w2 t,
    workspace o dir w /\ nearest (files w) dir dir /\
    load_definitions o (below (definitions_of dir) (files w)) = Ret t /\
    cmd_stage o dir (L "database") (k, w) = (Ret (), (k1, w1)) /\
    cmd_stage o dir (L "database") (k, w1) = (Ret (), (k2, w2)) /\ w2 <> w1.
Proof. exact refute_stage_again. Qed.
Print Assumptions C68_stage_again_refuted.

Example C68_example :
  (cmd_stage ex_outside ex_dir (L "database") (1000, ws1)).1 = Ret () /\
  ws_report ws1 = Some (0, 9) /\ ws_report ws2 = Some (9, 0).
Proof. exact ws2_staged. Qed.

(** ** C69: stage, make and up end with nothing left to do

    The database is on the new version, nothing is staged, and nothing is to be staged (again,
    exactly if the new sequences have no owners). *)
Theorem C69_cycle {S : Type} (o : outside S) (o1 o2 o3 o4 : outside S) dir w name cwd1 cwd2 cwd3 cwd4
    k k1 w1 k2 k2' w2 k3 k3' w3 k4 r k4' w4 t stg :
  reads_base o -> codec o -> schema_ident o new_schema = Some new_schema ->
  workspace o dir w -> same_reader o o1 -> same_machine o o2 -> same_machine o o3 -> same_reader o o4 ->
  nearest (files w) cwd1 dir -> nearest (files w1) cwd2 dir -> nearest (files w2) cwd3 dir -> nearest (files w3) cwd4 dir ->
  load_definitions o (below (definitions_of dir) (files w)) = Ret t ->
  cmd_stage o1 cwd1 (L "database") (k, w) = (Ret (), (k1, w1)) ->
  stored (history_at o (history_of dir) (files w1)) (L "stage") stg -> v_changes stg <> [] ->
  files w1 !! (history_of dir ++ [made_name (now o2) name ++ L ".yaml"]) = None -> plain_name (made_name (now o2) name) ->
  cmd_make o2 cwd2 (L "database") name (k2, w1) = (Ret (), (k2', w2)) ->
  cmd_up o3 cwd3 (L "database") None (k3, w2) = (Ret (), (k3', w3)) ->
  cmd_status o4 cwd4 (L "database") (k4, w3) = (r, (k4', w4)) -> r <> Killed ->
  exists rep source, r = Ret rep /\
    calculate_snapshot (history_at o (history_of dir) (files w)) (L "stage") = Ret source /\
    on_version rep = Ret (made_name (now o2) name) /\ staged rep = [] /\
    (not_staged rep = [] <-> new_sequences_unowned source t).
Proof. exact (fun Hb Hc => whole_cycle o Hb Hc o1 o2 o3 o4 dir w name cwd1 cwd2 cwd3 cwd4 k k1 w1 k2 k2' w2 k3 k3' w3 k4 r k4' w4 t stg). Qed.
Print Assumptions C69_cycle.

(** The statements that are run are those of the staged changes. *)
Theorem C69_statements {S : Type} (o : outside S) (o2 o3 : outside S) dir w1 name cwd2 cwd3 k2 k2' w2 k3 k3' w3 stg db row tb :
  reads_base o -> codec o -> schema_ident o new_schema = Some new_schema ->
  workspace o dir w1 -> same_machine o o2 -> same_machine o o3 ->
  nearest (files w1) cwd2 dir -> nearest (files w2) cwd3 dir ->
  stored (history_at o (history_of dir) (files w1)) (L "stage") stg -> v_changes stg <> [] ->
  files w1 !! (history_of dir ++ [made_name (now o2) name ++ L ".yaml"]) = None -> plain_name (made_name (now o2) name) ->
  cmd_make o2 cwd2 (L "database") name (k2, w1) = (Ret (), (k2', w2)) ->
  cmd_up o3 cwd3 (L "database") None (k3, w2) = (Ret (), (k3', w3)) ->
  servers w1 !! new_url = Some db -> finds db new_schema tb -> newest (t_rows tb) row ->
  v_previous stg = Some (v_name (r_version row)) ->
  exists db', servers w3 !! new_url = Some db' /\
    runs (statement o) (render_sql <$> v_changes stg) (pg_user db) (pg_user db').
Proof. exact (fun Hb Hc => up_made o Hb Hc o2 o3 dir w1 name cwd2 cwd3 k2 k2' w2 k3 k3' w3 stg db row tb). Qed.
Print Assumptions C69_statements.

Theorem C69_cycle_refuted :
  exists (o : outside (list str)) dir w k k1 w1 k2 w2 k3 w3 t rep,
    workspace o dir w /\ nearest (files w) dir dir /\
    load_definitions o (below (definitions_of dir) (files w)) = Ret t /\
    cmd_stage o dir (L "database") (k, w) = (Ret (), (k1, w1)) /\
    cmd_make o dir (L "database") (Some (L "first")) (k, w1) = (Ret (), (k2, w2)) /\
    cmd_up o dir (L "database") None (k, w2) = (Ret (), (k3, w3)) /\
    (cmd_status o dir (L "database") (k, w3)).1 = Ret rep /\ not_staged rep <> [].
Proof. exact refute_cycle. Qed.
Print Assumptions C69_cycle_refuted.

Example C69_example :
  workspace ex_outside ex_dir ws1 /\ schema_ident ex_outside new_schema = Some new_schema /\
  nearest (files ws1) ex_dir ex_dir /\ nearest (files ws2) ex_dir ex_dir /\
  nearest (files ws3) ex_dir ex_dir /\ nearest (files ws4) ex_dir ex_dir /\
  (exists t, load_definitions ex_outside (below (definitions_of ex_dir) (files ws1)) = Ret t) /\
  (exists k1, cmd_stage ex_outside ex_dir (L "database") (1000, ws1) = (Ret (), (k1, ws2))) /\
  (exists stg, stored (history_at ex_outside (history_of ex_dir) (files ws2)) (L "stage") stg /\ v_changes stg <> []) /\
  files ws2 !! (history_of ex_dir ++ [made_name t1 (Some (L "first")) ++ L ".yaml"]) = None /\
  plain_name (made_name t1 (Some (L "first"))) /\
  (exists k2, cmd_make ex_outside ex_dir (L "database") (Some (L "first")) (1000, ws2) = (Ret (), (k2, ws3))) /\
  (exists k3, cmd_up ex_outside ex_dir (L "database") None (1000, ws3) = (Ret (), (k3, ws4))) /\
  ws_report ws4 = Some (0, 0) /\ ws_on ws4 = Some (L "20240101_120000-first").
Proof. exact ex_cycle. Qed.

(** ** C70: the definitions that clone writes are those of the database

    (The function; the command line never reaches it, C52.)  They are what is loaded if the
    database can be written down; the general case is whatever the document that is saved
    loads as. *)
Theorem C70_clone_partial {S : Type} (o : outside S) cwd name p dp k w db d :
  reads_back (documents_of o) ->
  profile_at (setting_of o) (files w) cwd name p -> profile_at (setting_of o) (files w) cwd (L "database") dp ->
  files w !! p_definitions dp = Some Directory -> files w !! (p_definitions dp ++ [L "public.yaml"]) <> Some Directory ->
  (forall q text, definition_at (below (p_definitions dp) (files w)) q text -> q = [L "public.yaml"]) ->
  servers w !! p_database_url p = Some db -> introspect o db = Ret d -> machine_db d -> savable d ->
  exists w', cmd_clone o cwd name (2 + k, w) = (Ret (), (k, w')) /\ servers w' = servers w /\
    (forall q, q <> p_definitions dp ++ [L "public.yaml"] -> files w' !! q = files w !! q) /\
    load_definitions o (below (p_definitions dp) (files w')) = Ret d.
Proof. exact (clone_savable o cwd name p dp k w db d). Qed.
Print Assumptions C70_clone_partial.

Theorem C70_clone_iff {S : Type} (o : outside S) cwd name p dp k w db d :
  reads_back (documents_of o) ->
  profile_at (setting_of o) (files w) cwd name p -> profile_at (setting_of o) (files w) cwd (L "database") dp ->
  files w !! p_definitions dp = Some Directory -> files w !! (p_definitions dp ++ [L "public.yaml"]) <> Some Directory ->
  (forall q text, definition_at (below (p_definitions dp) (files w)) q text -> q = [L "public.yaml"]) ->
  servers w !! p_database_url p = Some db -> introspect o db = Ret d -> machine_db d ->
  (exists w', cmd_clone o cwd name (2 + k, w) = (Ret (), (k, w')) /\
     load_definitions o (below (p_definitions dp) (files w')) = Ret d) <-> savable d.
Proof. exact (clone_iff o cwd name p dp k w db d). Qed.
Print Assumptions C70_clone_iff.

Theorem C70_clone_exact {S : Type} (o : outside S) cwd name p dp k w db d m :
  reads_back (documents_of o) ->
  profile_at (setting_of o) (files w) cwd name p -> profile_at (setting_of o) (files w) cwd (L "database") dp ->
  files w !! p_definitions dp = Some Directory -> files w !! (p_definitions dp ++ [L "public.yaml"]) <> Some Directory ->
  (forall q text, definition_at (below (p_definitions dp) (files w)) q text -> q = [L "public.yaml"]) ->
  servers w !! p_database_url p = Some db -> introspect o db = Ret d ->
  save_document (dc_save_order (documents_of o)) d = Done m ->
  exists w', cmd_clone o cwd name (2 + k, w) = (Ret (), (k, w')) /\ servers w' = servers w /\
    (forall q, q <> p_definitions dp ++ [L "public.yaml"] -> files w' !! q = files w !! q) /\
    forall t, load_definitions o (below (p_definitions dp) (files w')) = Ret t <-> load_document any_order m = Done t.
Proof. exact (clone_loads o cwd name p dp k w db d m). Qed.
Print Assumptions C70_clone_exact.

(** A database with a sequence that counts in twos: clone succeeds, and nothing can be loaded. *)
Theorem C70_clone_refuted :
  exists (o : outside (list str)) cwd p k w db d w',
    reads_back (documents_of o) /\ profile_at (setting_of o) (files w) cwd (L "database") p /\
    files w !! p_definitions p = Some Directory /\
    (forall q text, definition_at (below (p_definitions p) (files w)) q text -> q = [L "public.yaml"]) /\
    servers w !! p_database_url p = Some db /\ introspect o db = Ret d /\ machine_db d /\
    cmd_clone o cwd (L "database") (2 + k, w) = (Ret (), (k, w')) /\
    forall t, load_definitions o (below (p_definitions p) (files w')) <> Ret t.
Proof. exact refute_clone. Qed.
Print Assumptions C70_clone_refuted.

Example C70_example :
  reads_back (documents_of (pub_outside 1)) /\
  profile_at (setting_of (pub_outside 1)) (files ws0) ex_dir (L "database") (base_profile ex_dir) /\
  files ws0 !! p_definitions (base_profile ex_dir) = Some Directory /\
  files ws0 !! (p_definitions (base_profile ex_dir) ++ [L "public.yaml"]) <> Some Directory /\
  (forall q text, definition_at (below (p_definitions (base_profile ex_dir)) (files ws0)) q text -> q = [L "public.yaml"]) /\
  servers ws0 !! p_database_url (base_profile ex_dir) = Some empty_db /\
  introspect (pub_outside 1) empty_db = Ret (pub_db 1) /\ machine_db (pub_db 1) /\ savable (pub_db 1) /\
  size (db_schemas (pub_db 1)) = 1.
Proof. exact ex_clone. Qed.
