(** C79-C83: what the commands print.

    [green], [red] and [dimmed] are what the terminal colours do to a text; the theorems hold
    for any. *)
From Verif Require Import Base Text Types Changes SpecSnapshot SpecChange SpecDiff Diff DecideSpec DiffOrder SnapshotExamples Sql
  Expand Project Definitions World History SpecHistory HistoryLemmas HistoryLoad HistoryProofs HistoryRun HistoryClaims HistoryExamples
  Dbh SpecDb DbLemmas DbRun DbExamples SpecProject WorldExamples
  Output SpecOutput OutputLemmas OutputProofs OutputTells OutputFiles OutputExamples.
From stdpp Require Import sorting.

(** ** C79: a migration prints what it does

    First: the commands that print do to the database what the commands of C36-C47 do.  Then:
    what is printed is the beginning of the full account of the migration, all of it if the
    command succeeds; and the statements printed are the statements that were executed, except
    that the last one executed may not be printed yet. *)
Theorem C79_up_same_effect {S : Type} (green dimmed : str -> str) (sem : str -> S -> option S) (ident : str -> option str) l d schema version :
  same_effect (up_told green dimmed sem ident l d schema version) (up sem ident l d schema version).
Proof. exact (mirrors_same _ _ (mirrors_up green dimmed sem ident l d schema version)). Qed.
Print Assumptions C79_up_same_effect.

Theorem C79_down_same_effect {S : Type} (green dimmed : str -> str) (sem : str -> S -> option S) (ident : str -> option str) schema version :
  same_effect (down_told green dimmed sem ident schema version) (down sem ident schema version).
Proof. exact (mirrors_same _ _ (mirrors_down green dimmed sem ident schema version)). Qed.
Print Assumptions C79_down_same_effect.

Theorem C79_up_tells {S : Type} (green dimmed : str -> str) (sem : str -> S -> option S) (ident : str -> option str) schema
    (db : pg S) l d version k r k' s' out :
  ident schema = Some schema -> well_named d -> plain_dir d ->
  up_told green dimmed sem ident l d schema version (k, Session db db) = ((r, (k', s')), out) ->
  (out = [] /\ r <> Ret ()) \/
  exists t cur to, finds db schema t /\ newest (t_rows t) cur /\ target d version to /\
    let first := heading (L "upward") (v_name (r_version cur)) to in
    ((out `prefix_of` first /\ r <> Ret ()) \/
     exists names vs, SpecHistory.path d (v_name (r_version cur)) names to /\ v_name (r_version cur) ∉ names /\
       Forall2 (stored d) names vs /\
       ((vs = [] /\ r = Ret () /\ out = first ++ [L "  No migrations to apply."]) \/
        (vs <> [] /\ exists its ss, out = first ++ (item_line green dimmed (L "Applying") <$> its) /\
           told_of (items v_up vs) its ss /\ runs sem ss (pg_user db) (pg_user (working s')) /\
           (r = Ret () -> its = items v_up vs)))).
Proof. exact (fun H => up_tells green dimmed sem ident schema db H l d version k r k' s' out). Qed.
Print Assumptions C79_up_tells.

Theorem C79_down_tells {S : Type} (green dimmed : str -> str) (sem : str -> S -> option S) (ident : str -> option str) schema
    (db : pg S) version k r k' s' out :
  ident schema = Some schema ->
  (forall t, has_table db schema t -> distinct (t_rows t)) ->
  down_told green dimmed sem ident schema version (k, Session db db) = ((r, (k', s')), out) ->
  (out = [] /\ r <> Ret ()) \/
  exists t cur, finds db schema t /\ newest (t_rows t) cur /\
    ((version = None /\ v_previous (r_version cur) = None /\
      (out = [L "On database version: " ++ v_name (r_version cur)] /\ r <> Ret () \/
       out = [L "On database version: " ++ v_name (r_version cur); L "No migrations to apply. Already on the init version."] /\ r = Ret ())) \/
     exists to, match version with Some n => to = n | None => v_previous (r_version cur) = Some to end /\
       let first := heading (L "downward") (v_name (r_version cur)) to in
       ((out `prefix_of` first /\ r <> Ret ()) \/
        exists rt rs, rt ∈ t_rows t /\ v_name (r_version rt) = to /\
          (forall r, r ∈ rs <-> r ∈ t_rows t /\ (r_order rt < r_order r)%Z) /\
          StronglySorted (fun a b => r_order b < r_order a)%Z rs /\
          ((rs = [] /\ r = Ret () /\ out = first ++ [L "  No migrations to apply."]) \/
           (rs <> [] /\ exists its ss, out = first ++ (item_line green dimmed (L "Reverting") <$> its) /\
              told_of (items v_down (r_version <$> rs)) its ss /\ runs sem ss (pg_user db) (pg_user (working s')) /\
              (r = Ret () -> its = items v_down (r_version <$> rs)))))).
Proof. exact (fun H => down_tells green dimmed sem ident schema db H version k r k' s' out). Qed.
Print Assumptions C79_down_tells.

Example C79_example :
  pg_ident podo = Some podo /\ well_named toy_dir /\ plain_dir toy_dir /\
  (toy_up_told 1000).1.1 = Ret () /\
  (toy_up_told 1000).2 =
    [L "On database version: init"; L "Applying upward migrations to b:";
     L "  Applying version <g>a</g>"; L "    <d>+a</d>"; L "    <d>++a</d>";
     L "  Applying version <g>b</g>"; L "    <d>+b</d>"; L "    <d>++b</d>"].
Proof. split; [exact podo_ident|]. split; [exact toy_named|]. split; [exact toy_plain|exact toy_up_output]. Qed.
Example C79_example_killed :
  (toy_up_told 11).1.1 = Killed /\
  (toy_up_told 11).2 =
    [L "On database version: init"; L "Applying upward migrations to b:";
     L "  Applying version <g>a</g>"; L "    <d>+a</d>"].
Proof. exact toy_up_killed. Qed.
Example C79_example_down :
  (forall t, has_table toy_db2 podo t -> distinct (t_rows t)) /\
  (toy_down_told (Some (L "a"))).1.1 = Ret () /\
  (toy_down_told (Some (L "a"))).2 =
    [L "On database version: b"; L "Applying downward migrations to a:";
     L "  Reverting version <g>b</g>"; L "    <d>-+b</d>"; L "    <d>-b</d>"].
Proof. split; [exact toy_db2_distinct|exact toy_down_output]. Qed.

(** ** C80: the output shows whether the migration took effect

    It does not: if the server refuses the commit, the same is printed and nothing is done.
    The converse holds: if anything was done, the command succeeded, and so the account is
    complete (C79). *)
Theorem C80_output_refuted :
  exists (sem sem' : str -> list str -> option (list str)) l d db k db1 db2 out,
    (forall stmt, stmt <> L "COMMIT" -> sem stmt = sem' stmt) /\ reachable d /\
    pg_schemas db !! podo = None /\
    run_told (up_told mark_green mark_dimmed sem pg_ident l d podo None) k db = (Ret (), db1, out) /\
    run_told (up_told mark_green mark_dimmed sem' pg_ident l d podo None) k db = (Raise DbError, db2, out) /\
    ~ same_contents db db1 /\ same_contents db db2.
Proof. exact refute_output. Qed.
Print Assumptions C80_output_refuted.

Theorem C80_up_effect_partial {S : Type} (green dimmed : str -> str) (sem : str -> S -> option S) (ident : str -> option str) l d schema version k db r db' out :
  run_told (up_told green dimmed sem ident l d schema version) k db = (r, db', out) ->
  r <> Ret () -> same_contents db db'.
Proof. exact (run_told_careful _ k db r db' out (tcareful_up green dimmed sem ident l d schema version)). Qed.
Print Assumptions C80_up_effect_partial.

Theorem C80_down_effect_partial {S : Type} (green dimmed : str -> str) (sem : str -> S -> option S) (ident : str -> option str) schema version k db r db' out :
  run_told (down_told green dimmed sem ident schema version) k db = (r, db', out) ->
  r <> Ret () -> same_contents db db'.
Proof. exact (run_told_careful _ k db r db' out (tcareful_down green dimmed sem ident schema version)). Qed.
Print Assumptions C80_down_effect_partial.

(** ** C81: make announces exactly the version it makes

    The version is announced before it is saved, so it may be announced and not exist; but a
    version is not made without being announced. *)
Theorem C81_made_refuted :
  exists d l now name k k' out, reachable d /\ timestamp now /\
    make_told mark_green l now name (k, d) = ((Raise FileError, (k', d)), out) /\
    L "Made version: " ++ mark_green (made_name now name) ∈ out.
Proof. exact refute_made. Qed.
Print Assumptions C81_made_refuted.

Theorem C81_make_same_effect green l now name : same_effect (make_told green l now name) (make l now name).
Proof. exact (mirrors_same _ _ (mirrors_make green l now name)). Qed.
Print Assumptions C81_make_same_effect.

Theorem C81_make_tells_partial green l now name k d r k' d' out :
  make_told green l now name (k, d) = ((r, (k', d')), out) ->
  (out = [] /\ d' = d /\ r <> Ret ()) \/
  exists v, stored d (L "stage") v /\
    ((v_changes v = [] /\ v_up v = [] /\ v_down v = [] /\ out = [L "Nothing to make. Stage is empty."] /\ d' = d /\ r = Ret ()) \/
     (~ (v_changes v = [] /\ v_up v = [] /\ v_down v = []) /\ out = [L "Made version: " ++ green (made_name now name)] /\
      (r = Ret () ->
       stored d' (made_name now name) (Version (made_name now name) (v_previous v) (v_changes v) (v_up v) (v_down v)) /\
       stored d' (L "stage") (Version (L "stage") (Some (made_name now name)) [] [] [])))).
Proof. exact (make_tells green l now name k d r k' d' out). Qed.
Print Assumptions C81_make_tells_partial.

Example C81_example :
  (make_told mark_green sorted_listing t1 None (5, ex_d1)).1.1 = Ret () /\
  (make_told mark_green sorted_listing t1 None (5, ex_d1)).2 = [L "Made version: <g>20240101_120000-auto</g>"].
Proof. exact make_output. Qed.

(** ** C82: stage lists exactly the changes it stages

    If it succeeds: the changes listed are the changes added, and their text is the text of
    the statements added.  If it fails (C35), changes are listed though nothing is staged. *)
Theorem C82_listed_refuted :
  exists d l os ot t k r k' out line, reachable d /\ wf_db t /\ no_dangling_index t /\
    stage_told mark_green mark_dimmed l os ot (Ret t) (k, d) = ((r, (k', d)), out) /\
    (exists e, r = Raise e) /\ out = [L "Staging changes:"; line].
Proof. exact refute_listed. Qed.
Print Assumptions C82_listed_refuted.

Theorem C82_stage_same_effect green dimmed l os ot definitions :
  same_effect (stage_told green dimmed l os ot definitions) (stage l os ot definitions).
Proof. exact (mirrors_same _ _ (mirrors_stage green dimmed l os ot definitions)). Qed.
Print Assumptions C82_stage_same_effect.

Theorem C82_stage_tells_partial (green dimmed : str -> str) (l : listing) (os ot : iter_order) (definitions : exec database) (k : nat)
    d r k' d' out :
  well_named d ->
  stage_told green dimmed l os ot definitions (k, d) = ((r, (k', d')), out) ->
  (out = [] /\ d' = d /\ r <> Ret ()) \/
  exists t source st, definitions = Ret t /\ calculate_snapshot d (L "stage") = Ret source /\ stored d (L "stage") st /\
    let cs := compare_diff os ot source t in
    ((out `prefix_of` change_lines green dimmed cs /\ d' = d /\ r <> Ret ()) \/
     (out = change_lines green dimmed cs /\
      (r = Ret () -> exists st', stored d' (L "stage") st' /\
         v_changes st' = v_changes st ++ cs /\ v_up st' = v_up st ++ (render_sql <$> cs)))).
Proof. exact (stage_tells green dimmed l os ot definitions k d r k' d' out). Qed.
Print Assumptions C82_stage_tells_partial.

Example C82_example :
  well_named ex_d2 /\ length stage_output = 21 /\
  (stage_told mark_green mark_dimmed sorted_listing any_order table_first (Ret ex_target) (100, ex_d2)).1.1 = Ret ().
Proof. split; [exact (proj1 (DbProofs.reachable_dir ex_d2 ex_d2_reachable))|exact stage_output_length]. Qed.

(** ** C83: status prints its report in full, and "No changes." exactly if there are none

    It never fails in a project with a readable history and readable definitions, whatever the
    state of the database, and it changes nothing. *)
Theorem C83_status_tells {S : Type} (o : outside S) (green red : str -> str) (message : herror -> str) cwd name p dp k w r k' w' t out :
  profile_at (setting_of o) (files w) cwd name p -> profile_at (setting_of o) (files w) cwd (L "database") dp ->
  is_directory (files w) (p_history dp) = true ->
  reachable (history_at o (p_history dp) (files w)) ->
  load_definitions o (below (p_definitions dp) (files w)) = Ret t ->
  status_told green red message o cwd name (k, w) = ((r, (k', w')), out) ->
  w' = w /\ r <> Abort /\ r <> Hang /\ (forall e, r <> Raise e) /\
  (r = Ret () -> exists line stage source,
    stored (history_at o (p_history dp) (files w)) (L "stage") stage /\
    calculate_snapshot (history_at o (p_history dp) (files w)) (L "stage") = Ret source /\
    out = [L "On database version: " ++ line] ++
      part (L "Changes staged:") green (v_changes stage) ++
      part (L "Changes not staged:") red (compare_diff (order_source o) (order_target o) source t) ++
      (if decide (v_changes stage = [] /\ compare_diff (order_source o) (order_target o) source t = []) then [L "No changes."] else []) /\
    (L "No changes." ∈ out <-> v_changes stage = [] /\ db_same source t) /\
    (forall db tbl row,
       schema_ident o (p_metadata_schema p) = Some (p_metadata_schema p) ->
       servers w !! p_database_url p = Some db -> has_table db (p_metadata_schema p) tbl ->
       NoDup (r_order <$> t_rows tbl) -> newest (t_rows tbl) row ->
       line = green (v_name (r_version row)))).
Proof. exact (status_tells o green red message cwd name p dp k w r k' w' t out). Qed.
Print Assumptions C83_status_tells.

Example C83_example :
  profile_at ex_setting (ex_files ex_d1 ex_d0) ex_cwd (L "other") ex_other /\
  profile_at ex_setting (ex_files ex_d1 ex_d0) ex_cwd (L "database") ex_default /\
  is_directory (ex_files ex_d1 ex_d0) (p_history ex_default) = true /\
  reachable (history_at ex_outside (p_history ex_default) (ex_files ex_d1 ex_d0)) /\
  load_definitions ex_outside (below (p_definitions ex_default) (ex_files ex_d1 ex_d0)) = Ret database_new.
Proof. exact ex_status. Qed.
