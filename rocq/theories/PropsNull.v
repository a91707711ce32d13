(** C92: what becomes of NOT NULL between the definitions and the database.

    C86 and C88 ask that the database is as the snapshot describes it after every statement.
    Few migrations are like that: CREATE TABLE leaves out NOT NULL, and a primary key brings it
    back.  Here only the end counts. *)
From Verif Require Import Base Text Types Changes SpecSnapshot SpecMerge SpecDiff DiffOrder SnapshotExamples Sql SpecSql History SpecHistory
  HistoryRun HistoryExamples Project Definitions World SpecProject SpecSession ProjectSession WorldExamples Dbh SpecDb DbProofs DbExamples
  SpecLex SpecStatement SpecServer SpecAccept SpecObey ServerExamples ObeyFlowExamples
  SpecSpelled SpecNull NullLemmas NullDiff NullFlow NullExamples.

(** ** Statements one after another *)

(** If the statements say what their changes mean and do nothing besides, but for NOT NULL,
    the database is the one that the snapshot describes exactly if the columns in the snapshot
    are NOT NULL as the statements leave them. *)
Theorem C92_nulls_iff cs d sv d' sv' :
  Forall well_spelled cs -> wf_db d -> described d sv -> faithful_but_null d cs ->
  apply_all cs d = (d', Ok ()) -> runs obey (render_sql <$> cs) sv sv' ->
  (described d' sv' <->
   forall s t x c, column_at d' s t x = Some c -> col_notnull c = null_after cs (not_null_in d) s t x).
Proof. exact (nulls_after cs d sv d' sv'). Qed.
Print Assumptions C92_nulls_iff.
(** Whether the server accepts them has nothing to do with NOT NULL. *)
Theorem C92_accepted_iff cs d sv d' :
  Forall well_spelled cs -> wf_db d -> described d sv -> apply_all cs d = (d', Ok ()) -> faithful_but_null d cs ->
  ((exists sv', runs obey (render_sql <$> cs) sv sv') <-> acceptable d cs).
Proof. exact (accepted_but_null cs d sv d'). Qed.
Print Assumptions C92_accepted_iff.

(** ** The differences between two snapshots *)

(** From the snapshots alone, in whatever order the hash maps are visited. *)
Theorem C92_diff_iff os ot s t sv d' sv' :
  wf_db s -> wf_db t -> spelled_db s -> spelled_db t -> described s sv ->
  apply_all (Diff.compare_diff os ot s t) s = (d', Ok ()) -> db_equiv d' t ->
  faithful_but_null s (Diff.compare_diff os ot s t) ->
  runs obey (render_sql <$> Diff.compare_diff os ot s t) sv sv' ->
  (described t sv' <-> nulls_kept s t).
Proof. exact (diff_described os ot s t sv d' sv'). Qed.
Print Assumptions C92_diff_iff.
Theorem C92_diff_carried_out os ot s t sv d' :
  wf_db s -> wf_db t -> spelled_db s -> spelled_db t -> described s sv ->
  apply_all (Diff.compare_diff os ot s t) s = (d', Ok ()) -> db_equiv d' t ->
  faithful_but_null s (Diff.compare_diff os ot s t) -> acceptable s (Diff.compare_diff os ot s t) ->
  exists sv', runs obey (render_sql <$> Diff.compare_diff os ot s t) sv sv' /\ (described t sv' <-> nulls_kept s t).
Proof. exact (diff_migrates os ot s t sv d'). Qed.
Print Assumptions C92_diff_carried_out.

(** A table with a key that is NOT NULL ends as it should, though not every statement says
    what it means; one with another column that is NOT NULL does not. *)
Example C92_example : wf_db sv_init /\ spelled_db sv_init /\ described sv_init fresh /\
  (nl_case nl_keyed /\ ~ faithful sv_init (nl_diff nl_keyed) /\ nulls_kept sv_init nl_keyed) /\
  (nl_case nl_named /\ ~ nulls_kept sv_init nl_named).
Proof. exact ex_nulls. Qed.

(** ** The commands *)

Theorem C92_up_iff {S : Type} (sem : str -> S -> option S) (view : S -> server) (ident : str -> option str) (schema : str)
    l d version k db db' :
  ident schema = Some schema -> obedient sem view -> reachable d ->
  run (up sem ident l d schema version) k db = (Ret (), db') ->
  exists t cur to names vs,
    finds db schema t /\ newest (t_rows t) cur /\ target d version to /\
    SpecHistory.path d (v_name (r_version cur)) names to /\ Forall2 (stored d) names vs /\
    forall d0, calculate_snapshot d (v_name (r_version cur)) = Ret d0 -> described d0 (view (pg_user db)) ->
      Forall well_spelled (all_changes vs) -> faithful_but_null d0 (all_changes vs) -> acceptable d0 (all_changes vs) ->
      exists d1, calculate_snapshot d to = Ret d1 /\
        (described d1 (view (pg_user db')) <->
         forall s t x c, column_at d1 s t x = Some c -> col_notnull c = null_after (all_changes vs) (not_null_in d0) s t x).
Proof. exact (fun H1 H2 => up_nulls sem view ident schema H1 H2 l d version k db db'). Qed.
Print Assumptions C92_up_iff.

Example C92_up_example :
  pg_ident podo = Some podo /\ obedient pg_sem (fun sv => sv) /\ reachable sv_d4 /\
  pg_up sv_d4 None pg0 = (Ret (), pg1) /\
  (SpecHistory.path sv_d4 (L "init") sv_names (L "20240102_093000-users") /\ Forall2 (stored sv_d4) sv_names sv_versions) /\
  calculate_snapshot sv_d4 (L "init") = Ret sv_init /\ described sv_init (pg_user pg0) /\
  Forall well_spelled (all_changes sv_versions) /\ faithful_but_null sv_init (all_changes sv_versions) /\
  acceptable sv_init (all_changes sv_versions).
Proof. exact ex_up_nulls. Qed.

(** stage, make and up, whatever was staged before, *)
Theorem C92_cycle_iff {S : Type} (o : outside S) (view : S -> server)
    (o1 o2 o3 : outside S) dir w name cwd1 cwd2 cwd3 k k1 w1 k2 k2' w2 k3 k3' w3 t stg db tb row d0 :
  reads_base o -> codec o -> obedient (World.statement o) view ->
  schema_ident o new_schema = Some new_schema ->
  workspace o dir w -> same_reader o o1 -> same_machine o o2 -> same_machine o o3 ->
  nearest (files w) cwd1 dir -> nearest (files w1) cwd2 dir -> nearest (files w2) cwd3 dir ->
  load_definitions o (below (definitions_of dir) (files w)) = Ret t ->
  cmd_stage o1 cwd1 (L "database") (k, w) = (Ret (), (k1, w1)) ->
  stored (history_at o (history_of dir) (files w1)) (L "stage") stg -> v_changes stg <> [] ->
  files w1 !! (history_of dir ++ [made_name (now o2) name ++ L ".yaml"]) = None -> plain_name (made_name (now o2) name) ->
  cmd_make o2 cwd2 (L "database") name (k2, w1) = (Ret (), (k2', w2)) ->
  cmd_up o3 cwd3 (L "database") None (k3, w2) = (Ret (), (k3', w3)) ->
  servers w !! new_url = Some db -> finds db new_schema tb -> newest (t_rows tb) row ->
  v_previous stg = Some (v_name (r_version row)) ->
  calculate_snapshot (history_at o (history_of dir) (files w1)) (v_name (r_version row)) = Ret d0 ->
  described d0 (view (pg_user db)) ->
  Forall well_spelled (v_changes stg) -> faithful_but_null d0 (v_changes stg) -> acceptable d0 (v_changes stg) ->
  exists db' source, servers w3 !! new_url = Some db' /\
    calculate_snapshot (history_at o (history_of dir) (files w)) (L "stage") = Ret source /\
    (described (expected_db source t) (view (pg_user db')) <->
     forall s k x c, column_at (expected_db source t) s k x = Some c ->
       col_notnull c = null_after (v_changes stg) (not_null_in d0) s k x).
Proof.
  exact (fun Hb Hc Ho => cycle_nulls o view Hb Hc Ho o1 o2 o3 dir w name cwd1 cwd2 cwd3 k k1 w1 k2 k2' w2 k3 k3' w3 t stg db tb row d0).
Qed.
Print Assumptions C92_cycle_iff.
Example C92_cycle_example :
  v_changes (nl_stage nl_keyed (nw2 nl_keyed)) = nl_diff nl_keyed /\ v_previous (nl_stage nl_keyed (nw2 nl_keyed)) = Some (L "init") /\
  Forall well_spelled (nl_diff nl_keyed) /\ nl_case nl_keyed /\ nl_session nl_keyed.
Proof. exact ex_cycle_nulls. Qed.

(** and with nothing staged before: then the definitions and the snapshot of the history
    decide. *)
Theorem C92_fresh_iff {S : Type} (o : outside S) (view : S -> server)
    (o1 o2 o3 : outside S) dir w name cwd1 cwd2 cwd3 k k1 w1 k2 k2' w2 k3 k3' w3 t stg0 stg db tb row d0 :
  reads_base o -> codec o -> obedient (World.statement o) view ->
  schema_ident o new_schema = Some new_schema ->
  workspace o dir w -> same_reader o o1 -> same_machine o o2 -> same_machine o o3 ->
  nearest (files w) cwd1 dir -> nearest (files w1) cwd2 dir -> nearest (files w2) cwd3 dir ->
  load_definitions o (below (definitions_of dir) (files w)) = Ret t ->
  cmd_stage o1 cwd1 (L "database") (k, w) = (Ret (), (k1, w1)) ->
  stored (history_at o (history_of dir) (files w1)) (L "stage") stg -> v_changes stg <> [] ->
  files w1 !! (history_of dir ++ [made_name (now o2) name ++ L ".yaml"]) = None -> plain_name (made_name (now o2) name) ->
  cmd_make o2 cwd2 (L "database") name (k2, w1) = (Ret (), (k2', w2)) ->
  cmd_up o3 cwd3 (L "database") None (k3, w2) = (Ret (), (k3', w3)) ->
  servers w !! new_url = Some db -> finds db new_schema tb -> newest (t_rows tb) row ->
  stored (history_at o (history_of dir) (files w)) (L "stage") stg0 -> v_changes stg0 = [] ->
  v_previous stg0 = Some (v_name (r_version row)) ->
  calculate_snapshot (history_at o (history_of dir) (files w)) (v_name (r_version row)) = Ret d0 ->
  calculate_snapshot (history_at o (history_of dir) (files w1)) (v_name (r_version row)) = Ret d0 ->
  described d0 (view (pg_user db)) ->
  spelled_db d0 -> spelled_db t -> index_attributes_agree d0 t -> new_sequences_unowned d0 t ->
  faithful_but_null d0 (Diff.compare_diff (order_source o1) (order_target o1) d0 t) ->
  acceptable d0 (Diff.compare_diff (order_source o1) (order_target o1) d0 t) ->
  exists db', servers w3 !! new_url = Some db' /\ (described t (view (pg_user db')) <-> nulls_kept d0 t).
Proof.
  exact (fun Hb Hc Ho => cycle_fresh o view Hb Hc Ho o1 o2 o3 dir w name cwd1 cwd2 cwd3 k k1 w1 k2 k2' w2 k3 k3' w3 t stg0 stg db tb row d0).
Qed.
Print Assumptions C92_fresh_iff.

(** Three commands that all succeed, and the database is not what the definitions say. *)
Theorem C92_cycle_refuted : exists (o : outside server) (dir : Project.path) w name k k1 w1 k2 k2' w2 k3 k3' w3 t db db',
  reads_base o /\ codec o /\ obedient (World.statement o) (fun sv => sv) /\ workspace o dir w /\
  load_definitions o (below (definitions_of dir) (files w)) = Ret t /\
  cmd_stage o dir (L "database") (k, w) = (Ret (), (k1, w1)) /\
  cmd_make o dir (L "database") name (k2, w1) = (Ret (), (k2', w2)) /\
  cmd_up o dir (L "database") None (k3, w2) = (Ret (), (k3', w3)) /\
  servers w !! new_url = Some db /\
  (exists d0, calculate_snapshot (history_at o (history_of dir) (files w)) (L "stage") = Ret d0 /\
     described d0 (pg_user db) /\ index_attributes_agree d0 t /\ new_sequences_unowned d0 t /\
     acceptable d0 (Diff.compare_diff (order_source o) (order_target o) d0 t)) /\
  servers w3 !! new_url = Some db' /\ ~ described t (pg_user db').
Proof. exact refute_cycle. Qed.
Print Assumptions C92_cycle_refuted.

(** Two sessions that meet the hypotheses of [C92_fresh_iff], one on each side. *)
Example C92_fresh_example :
  (nl_case nl_keyed /\ nl_session nl_keyed /\
   exists db', servers (nw4 nl_keyed) !! new_url = Some db' /\ described nl_keyed (pg_user db')) /\
  (nl_case nl_named /\ nl_session nl_named /\
   exists db', servers (nw4 nl_named) !! new_url = Some db' /\ ~ described nl_named (pg_user db')).
Proof. exact ex_fresh. Qed.
