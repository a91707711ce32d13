(** What PostgreSQL makes of the generated statements (C84-C91).

    PostgreSQL is specified in SpecLex.v (tokens), SpecStatement.v (the grammar of the
    statements that are generated) and SpecServer.v (their effect, and the database that a
    snapshot describes). *)
From Verif Require Import Base Text Types Changes SpecSnapshot SpecMerge SpecDiff DiffOrder SnapshotExamples Sql SpecSql History SpecHistory
  HistoryRun HistoryExamples Project Definitions World SpecProject SpecSession ProjectSession WorldExamples Dbh SpecDb DbProofs DbExamples
  SpecLex SpecStatement SpecServer SpecAccept SpecObey SayLemmas ServerLemmas ObeyLemmas ObeyFlow ServerExamples AcceptExamples ObeyFlowExamples
  SpecSpelled SpelledLemmas RefusedLemmas SpelledExamples.

(** ** C84: the statement of a change says what the change means *)

Theorem C84_says_iff c : well_spelled c -> (says (render_sql c) c <-> sayable c).
Proof. exact (says_iff c). Qed.
Print Assumptions C84_says_iff.

(** CREATE TABLE never has NOT NULL. *)
Theorem C84_create_table s t cs : well_spelled (CreateTable s t cs) ->
  exists xs, mapM (fun c => pair (cc_name c) <$> column_meant (cc_type c) false (cc_default c)) cs = Some xs /\
    read_statement (render_sql (CreateTable s t cs)) = Some (DoCreateTable s t xs).
Proof. exact (read_create_table_text s t cs). Qed.
Print Assumptions C84_create_table.

(** ADD COLUMN has NOT NULL if and only if the column may be null. *)
Theorem C84_add_column s t n ty nn d : well_spelled (AddColumn s t n ty nn d) ->
  exists x, column_meant ty (negb nn) d = Some x /\
    read_statement (render_sql (AddColumn s t n ty nn d)) = Some (DoAlterTable s t (ToAddColumn n x)).
Proof. exact (read_add_column_text s t n ty nn d). Qed.
Print Assumptions C84_add_column.

(** Adding a foreign key, or creating a function, is never a statement. *)
Theorem C84_foreign_key s t n cs s' t' tcs m u dl d i :
  well_spelled (AddForeignKey s t n cs s' t' tcs m u dl d i) ->
  read_statement (render_sql (AddForeignKey s t n cs s' t' tcs m u dl d i)) = None.
Proof. exact (read_add_foreign_key_text s t n cs s' t' tcs m u dl d i). Qed.
Print Assumptions C84_foreign_key.

Theorem C84_function s f body lang ret vol x : well_spelled (CreateFunction s f body lang ret vol) ->
  function_meant body lang ret vol = Some x ->
  read_statement (render_sql (CreateFunction s f body lang ret vol)) = None.
Proof. exact (read_create_function_text s f body lang ret vol x). Qed.
Print Assumptions C84_function.

Theorem C84_says_refuted : exists c, well_spelled c /\ is_Some (meant c) /\ ~ says (render_sql c) c.
Proof. exact refute_says. Qed.
Print Assumptions C84_says_refuted.

Example C84_example : length (all_changes sv_versions) = 12 /\ Forall well_spelled (all_changes sv_versions) /\
  Forall sayable (all_changes sv_versions) /\ Forall (fun c => says (render_sql c) c) (all_changes sv_versions).
Proof. exact ex_says. Qed.
(** What becomes of a table with a column that must not be null, of such a column, and of a
    schema with capitals. *)
Example C84_lost :
  (well_spelled nn_change /\ read_statement (render_sql nn_change) =
     Some (DoCreateTable P (L "users") [(L "id", ColumnSpec [Word (L "int4")] false None)])) /\
  (well_spelled dc_back /\ read_statement (render_sql dc_back) =
     Some (DoAlterTable P (L "users") (ToAddColumn (L "name") (ColumnSpec [Word (L "text")] true None)))) /\
  well_spelled fk_change /\
  (well_spelled (CreateSchema (L "Sales")) /\ read_statement (render_sql (CreateSchema (L "Sales"))) = Some (DoCreateSchema (L "sales"))).
Proof. exact ex_lost. Qed.

(** ** C85: executing the statement of a change does to the database what the change does to
    the snapshot *)

Theorem C85_effect_iff c d sv d' sv' :
  well_spelled c -> wf_db d -> described d sv -> apply c d = (d', Ok ()) -> obey (render_sql c) sv = Some sv' ->
  (described d' sv' <-> sayable c /\ plain_effect c d).
Proof. exact (obey_iff c d sv d' sv'). Qed.
Print Assumptions C85_effect_iff.

(** The change says what it means, and does more than that: a primary key makes its columns
    NOT NULL; keys and indexes go with a column, and indexes with a table. *)
Theorem C85_effect_refuted :
  refuting (AddPrimaryKey P (L "users") (L "users_pkey") [L "id"] false false) /\
  refuting (DropColumn P (L "users") (L "id")) /\ refuting (DropTable P (L "users")).
Proof. exact refute_effects. Qed.
Print Assumptions C85_effect_refuted.

Example C85_example : exists c sv', c = DropIndex P (L "users_name") /\
  well_spelled c /\ wf_db sv_first /\ described sv_first (sv_at first_changes) /\
  apply c sv_first = (after c sv_first, Ok ()) /\ obey (render_sql c) (sv_at first_changes) = Some sv' /\
  sayable c /\ plain_effect c sv_first /\ described (after c sv_first) sv'.
Proof. exact ex_effect. Qed.

(** ** C86: after [up] the database is the one that the snapshot of the version describes *)

(** The database is described by the snapshot after every statement exactly if the changes
    say what they mean and have no other effects. *)
Theorem C86_in_step_iff cs d sv d' sv' :
  Forall well_spelled cs -> wf_db d -> described d sv ->
  apply_all cs d = (d', Ok ()) -> runs obey (render_sql <$> cs) sv sv' ->
  ((forall pre post d1 sv1, cs = pre ++ post -> apply_all pre d = (d1, Ok ()) ->
      runs obey (render_sql <$> pre) sv sv1 -> described d1 sv1) <-> faithful d cs).
Proof. exact (in_step cs d sv d' sv'). Qed.
Print Assumptions C86_in_step_iff.

Theorem C86_up_partial {S : Type} (sem : str -> S -> option S) (view : S -> server) (ident : str -> option str) (schema : str)
    l d version k db db' :
  ident schema = Some schema -> obedient sem view -> reachable d ->
  run (up sem ident l d schema version) k db = (Ret (), db') ->
  exists t cur to names vs,
    finds db schema t /\ newest (t_rows t) cur /\ target d version to /\
    SpecHistory.path d (v_name (r_version cur)) names to /\ Forall2 (stored d) names vs /\
    forall d0, calculate_snapshot d (v_name (r_version cur)) = Ret d0 -> described d0 (view (pg_user db)) ->
      Forall well_spelled (all_changes vs) -> faithful d0 (all_changes vs) -> acceptable d0 (all_changes vs) ->
      exists d1, calculate_snapshot d to = Ret d1 /\ described d1 (view (pg_user db')).
Proof. exact (fun H1 H2 => up_described sem view ident schema H1 H2 l d version k db db'). Qed.
Print Assumptions C86_up_partial.

(** A version with a foreign key or a function can never be applied. *)
Theorem C86_up_refuses {S : Type} (sem : str -> S -> option S) (view : S -> server) (ident : str -> option str) (schema : str)
    l d version k db r db' t cur to names vs c :
  ident schema = Some schema -> obedient sem view -> reachable d -> migrated sem ident schema db ->
  finds db schema t -> newest (t_rows t) cur -> target d version to ->
  SpecHistory.path d (v_name (r_version cur)) names to -> Forall2 (stored d) names vs ->
  c ∈ all_changes vs -> well_spelled c -> unreadable c ->
  run (up sem ident l d schema version) k db = (r, db') -> r <> Ret () /\ pg_user db' = pg_user db.
Proof. exact (fun H1 H2 => up_refused sem view ident schema H1 H2 l d version k db r db' t cur to names vs c). Qed.
Print Assumptions C86_up_refuses.

Theorem C86_up_refuted :
  exists (d : hdir) k db db' d0 d1 to,
    together pg_sem pg_ident podo (fun n => n <> L "stage") d db /\ pg_schemas db !! podo = None /\ to <> L "stage" /\
    calculate_snapshot d (L "init") = Ret d0 /\ described d0 (pg_user db) /\
    run (up pg_sem pg_ident sorted_listing d podo (Some to)) k db = (Ret (), db') /\
    calculate_snapshot d to = Ret d1 /\ ~ described d1 (pg_user db').
Proof. exact refute_up. Qed.
Print Assumptions C86_up_refuted.

Example C86_example :
  pg_ident podo = Some podo /\ obedient pg_sem (fun sv => sv) /\ reachable sv_d4 /\
  pg_up sv_d4 None pg0 = (Ret (), pg1) /\
  (SpecHistory.path sv_d4 (L "init") sv_names (L "20240102_093000-users") /\ Forall2 (stored sv_d4) sv_names sv_versions) /\
  (calculate_snapshot sv_d4 (L "init") = Ret sv_init /\
   calculate_snapshot sv_d4 (L "20240102_093000-users") = Ret sv_second) /\
  described sv_init (pg_user pg0) /\
  (length (all_changes sv_versions) = 12 /\ Forall well_spelled (all_changes sv_versions) /\
   faithful sv_init (all_changes sv_versions) /\ acceptable sv_init (all_changes sv_versions)).
Proof. exact ex_up_described. Qed.
Example C86_refuses_example :
  reachable fk_d2 /\ migrated pg_sem pg_ident podo pg0 /\
  (exists names vs, SpecHistory.path fk_d2 (L "init") names (made_name t1 None) /\ Forall2 (stored fk_d2) names vs /\
    fk_change ∈ all_changes vs) /\ well_spelled fk_change /\ unreadable fk_change /\
  (pg_up fk_d2 None pg0).1 = Abort /\ (pg_up fk_d2 None pg0).2 = pg0.
Proof. exact fk_example. Qed.

(** ** C87: after [down] the database is the one that the snapshot of the version describes *)

Theorem C87_down_partial {S : Type} (sem : str -> S -> option S) (view : S -> server) (ident : str -> option str) (schema : str)
    d version k db db' :
  ident schema = Some schema -> obedient sem view ->
  together sem ident schema (fun n => n <> L "stage") d db ->
  run (down sem ident schema version) k db = (Ret (), db') ->
  exists t cur, finds db schema t /\ newest (t_rows t) cur /\
    ((version = None /\ v_previous (r_version cur) = None /\ db' = db) \/
     exists to names vs, match version with Some n => to = n | None => v_previous (r_version cur) = Some to end /\
       SpecHistory.path d to names (v_name (r_version cur)) /\ Forall2 (stored d) names vs /\
       forall d0 d1, calculate_snapshot d to = Ret d0 -> calculate_snapshot d (v_name (r_version cur)) = Ret d1 ->
         described d1 (view (pg_user db)) -> taken_back d0 vs -> described d0 (view (pg_user db'))).
Proof. exact (fun H1 H2 => down_described sem view ident schema H1 H2 d version k db db'). Qed.
Print Assumptions C87_down_partial.

(** A column that was dropped comes back as one that must not be null. *)
Theorem C87_down_refuted :
  exists (d : hdir) k db db' d0 d1 from to,
    together pg_sem pg_ident podo (fun n => n <> L "stage") d db /\
    (forall t, has_table db podo t -> v_name <$> (r_version <$> t_rows t) = [L "init"; to; from]) /\
    calculate_snapshot d from = Ret d1 /\ described d1 (pg_user db) /\
    run (down pg_sem pg_ident podo None) k db = (Ret (), db') /\
    calculate_snapshot d to = Ret d0 /\ ~ described d0 (pg_user db').
Proof. exact refute_down. Qed.
Print Assumptions C87_down_refuted.

Example C87_example :
  together pg_sem pg_ident podo (fun n => n <> L "stage") sv_d4 pg1 /\
  pg_down (Some (L "init")) pg1 = (Ret (), pg2) /\
  described sv_second (pg_user pg1) /\ taken_back sv_init sv_versions /\
  pg_user pg2 = fresh.
Proof. exact ex_down_described. Qed.

(** ** C88: stage, make and up lead from a database as the history describes it to one as
    the definitions describe it *)

Theorem C88_cycle_partial {S : Type} (o : outside S) (view : S -> server)
    (o1 o2 o3 : outside S) dir w name cwd1 cwd2 cwd3 k k1 w1 k2 k2' w2 k3 k3' w3 t stg db tb row d0 :
  reads_base o -> codec o -> obedient (World.statement o) view ->
  schema_ident o new_schema = Some new_schema ->
  workspace o dir w -> same_reader o o1 -> same_machine o o2 -> same_machine o o3 ->
  nearest (files w) cwd1 dir -> nearest (files w1) cwd2 dir -> nearest (files w2) cwd3 dir ->
  load_definitions o (below (definitions_of dir) (files w)) = Ret t ->
  cmd_stage o1 cwd1 (L "database") (k, w) = (Ret (), (k1, w1)) ->
  stored (history_at o (history_of dir) (files w1)) (L "stage") stg -> v_changes stg <> [] ->
  files w1 !! (history_of dir ++ [made_name (now o2) name ++ L ".yaml"]) = None -> plain_name (made_name (now o2) name) ->
  cmd_make o2 cwd2 (L "database") name (k2, w1) = (Ret (), (k2', w2)) ->
  cmd_up o3 cwd3 (L "database") None (k3, w2) = (Ret (), (k3', w3)) ->
  servers w !! new_url = Some db -> finds db new_schema tb -> newest (t_rows tb) row ->
  v_previous stg = Some (v_name (r_version row)) ->
  calculate_snapshot (history_at o (history_of dir) (files w1)) (v_name (r_version row)) = Ret d0 ->
  described d0 (view (pg_user db)) ->
  Forall well_spelled (v_changes stg) -> faithful d0 (v_changes stg) -> acceptable d0 (v_changes stg) ->
  exists db' source, servers w3 !! new_url = Some db' /\
    calculate_snapshot (history_at o (history_of dir) (files w)) (L "stage") = Ret source /\
    described (expected_db source t) (view (pg_user db')) /\
    (index_attributes_agree source t -> new_sequences_unowned source t -> described t (view (pg_user db'))).
Proof.
  exact (fun Hb Hc Ho => cycle_described o view Hb Hc Ho o1 o2 o3 dir w name cwd1 cwd2 cwd3 k k1 w1 k2 k2' w2 k3 k3' w3 t stg db tb row d0).
Qed.
Print Assumptions C88_cycle_partial.

Example C88_example :
  workspace sv_outside ex_dir sw1 /\ obedient (World.statement sv_outside) (fun sv => sv) /\
  load_definitions sv_outside (below (definitions_of ex_dir) (files sw1)) = Ret sv_first /\
  (exists k, cmd_stage sv_outside ex_dir (L "database") (1000, sw1) = (Ret (), (k, sw2))) /\
  (exists k, cmd_make sv_outside ex_dir (L "database") (Some (L "first")) (1000, sw2) = (Ret (), (k, sw3))) /\
  (exists k, cmd_up sv_outside ex_dir (L "database") None (1000, sw3) = (Ret (), (k, sw4))) /\
  servers sw1 !! new_url = Some pg0 /\ described sv_init (pg_user pg0) /\
  (v_changes sw_stage <> [] /\ Forall well_spelled (v_changes sw_stage) /\ faithful sv_init (v_changes sw_stage) /\
   acceptable sv_init (v_changes sw_stage)) /\
  (servers sw4 !! new_url = Some sw_db /\ described sv_first (pg_user sw_db)).
Proof. exact ex_flow_described. Qed.

(** ** C89: a change that applies to the snapshot is carried out in the database *)

(** "Carried out" is as far as SpecServer.v has it: see there what it leaves out. *)
Theorem C89_accepted_iff c d sv d' :
  well_spelled c -> sayable c -> wf_db d -> described d sv -> apply c d = (d', Ok ()) ->
  (is_Some (obey (render_sql c) sv) <-> accepted c d).
Proof. exact (obey_accept c d sv d'). Qed.
Print Assumptions C89_accepted_iff.

Theorem C89_acceptable_iff cs d sv d' :
  Forall well_spelled cs -> wf_db d -> described d sv -> apply_all cs d = (d', Ok ()) -> faithful d cs ->
  ((exists sv', runs obey (render_sql <$> cs) sv sv') <-> acceptable d cs).
Proof. exact (acceptable_runs cs d sv d'). Qed.
Print Assumptions C89_acceptable_iff.

(** The differences between two definitions are refused when the name of a primary key
    changes and when a key becomes deferrable; when the name of a key moves to another table,
    it depends on the order in which a hash map is visited. *)
Theorem C89_accepted_refuted :
  stuck any_order any_order ac_key1 ac_key2 /\ stuck any_order any_order ac_unique1 ac_unique2 /\
  (stuck (order_first P (L "b")) any_order ac_move1 ac_move2 /\ moves (order_first P (L "a")) any_order ac_move1 ac_move2).
Proof. exact refute_accepted. Qed.
Print Assumptions C89_accepted_refuted.

Example C89_example :
  wf_db sv_first /\ described sv_first (sv_at first_changes) /\
  (well_spelled (ac_new (L "users_ids")) /\ sayable (ac_new (L "users_ids")) /\
   apply (ac_new (L "users_ids")) sv_first = (after (ac_new (L "users_ids")) sv_first, Ok ()) /\
   accepted (ac_new (L "users_ids")) sv_first) /\
  (* the name of an index *)
  (well_spelled (ac_new (L "users_name")) /\ sayable (ac_new (L "users_name")) /\
   apply (ac_new (L "users_name")) sv_first = (after (ac_new (L "users_name")) sv_first, Ok ()) /\
   ~ accepted (ac_new (L "users_name")) sv_first).
Proof. exact ex_accepted. Qed.
Example C89_acceptable_example : wf_db sv_init /\ described sv_init fresh /\
  (exists d', apply_all (all_changes sv_versions) sv_init = (d', Ok ())) /\
  length (all_changes sv_versions) = 12 /\ Forall well_spelled (all_changes sv_versions) /\
  faithful sv_init (all_changes sv_versions) /\ acceptable sv_init (all_changes sv_versions) /\
  ~ acceptable ac_key1 (Diff.compare_diff any_order any_order ac_key1 ac_key2).
Proof. exact ex_acceptable. Qed.

(** ** C90: what can be staged so that the statements say it *)

(** If the texts in two snapshots are what they should be, so are those in the changes
    between them; every statement says its change exactly if the difference can be said. *)
Theorem C90_spelled os ot s t :
  wf_db s -> wf_db t -> spelled_db s -> spelled_db t -> Forall well_spelled (Diff.compare_diff os ot s t).
Proof. exact (diff_spelled os ot s t). Qed.
Print Assumptions C90_spelled.
Theorem C90_says_iff os ot s t : wf_db s -> wf_db t -> spelled_db s -> spelled_db t ->
  (Forall (fun c => says (render_sql c) c) (Diff.compare_diff os ot s t) <-> difference_sayable s t).
Proof. exact (diff_says_iff os ot s t). Qed.
Print Assumptions C90_says_iff.
(** Otherwise the database is not what the snapshot describes after one of the statements. *)
Theorem C90_in_step os ot s t d' sv sv' :
  wf_db s -> wf_db t -> spelled_db s -> spelled_db t -> described s sv ->
  apply_all (Diff.compare_diff os ot s t) s = (d', Ok ()) ->
  runs obey (render_sql <$> Diff.compare_diff os ot s t) sv sv' ->
  (forall pre post d1 sv1, Diff.compare_diff os ot s t = pre ++ post -> apply_all pre s = (d1, Ok ()) ->
     runs obey (render_sql <$> pre) sv sv1 -> described d1 sv1) -> difference_sayable s t.
Proof. exact (in_step_sayable os ot s t d' sv sv'). Qed.
Print Assumptions C90_in_step.

(** The second difference adds a column. *)
Example C90_example :
  (wf_db sv_first /\ wf_db sv_second /\ wf_db sp_added) /\ (spelled_db sv_first /\ spelled_db sv_second /\ spelled_db sp_added) /\
  length (Diff.compare_diff any_order any_order sv_first sv_second) = 6 /\
  difference_sayable sv_first sv_second /\ ~ difference_sayable sv_first sp_added.
Proof. exact ex_difference. Qed.
Example C90_in_step_example : exists d' sv', described sv_first (sv_at first_changes) /\
  apply_all (Diff.compare_diff any_order any_order sv_first sv_second) sv_first = (d', Ok ()) /\
  runs obey (render_sql <$> Diff.compare_diff any_order any_order sv_first sv_second) (sv_at first_changes) sv' /\ described d' sv'.
Proof. exact ex_following. Qed.

(** ** C91: what can be staged and is never carried out *)

(** Whatever else changes, and in whatever order the hash maps are visited: not when a
    primary key gets another name, *)
Theorem C91_renamed_key os ot s t sv n k x y p q :
  wf_db s -> wf_db t -> spelled_db s -> spelled_db t -> difference_sayable s t -> described s sv ->
  constraint_at s n k x = Some (CPrimaryKey p) -> constraint_at t n k x = None ->
  constraint_at s n k y = None -> constraint_at t n k y = Some (CPrimaryKey q) ->
  ~ exists sv', runs obey (render_sql <$> Diff.compare_diff os ot s t) sv sv'.
Proof. exact (renamed_key_refused os ot s t sv n k x y p q). Qed.
Print Assumptions C91_renamed_key.
(** and not when only the time changes at which a key or a check is checked. *)
Theorem C91_deferrability os ot s t sv n k x a b :
  wf_db s -> wf_db t -> spelled_db s -> spelled_db t -> difference_sayable s t -> described s sv ->
  constraint_at s n k x = Some a -> constraint_at t n k x = Some b ->
  a <> b -> undeferred a = undeferred b -> (forall f, a <> CForeignKey f) ->
  ~ exists sv', runs obey (render_sql <$> Diff.compare_diff os ot s t) sv sv'.
Proof. exact (deferrability_refused os ot s t sv n k x a b). Qed.
Print Assumptions C91_deferrability.

Example C91_example :
  (wf_db ac_key1 /\ wf_db ac_key2 /\ spelled_db ac_key1 /\ spelled_db ac_key2 /\ difference_sayable ac_key1 ac_key2 /\
   described ac_key1 (sv_at ac_key1_made) /\
   (exists p q, constraint_at ac_key1 P (L "users") (L "users_pkey") = Some (CPrimaryKey p) /\
      constraint_at ac_key2 P (L "users") (L "users_pkey") = None /\
      constraint_at ac_key1 P (L "users") (L "users_id") = None /\
      constraint_at ac_key2 P (L "users") (L "users_id") = Some (CPrimaryKey q))) /\
  (wf_db ac_unique1 /\ wf_db ac_unique2 /\ spelled_db ac_unique1 /\ spelled_db ac_unique2 /\ difference_sayable ac_unique1 ac_unique2 /\
   described ac_unique1 (sv_at ac_unique1_made) /\
   constraint_at ac_unique1 P (L "users") (L "users_key") = Some (ac_unique false) /\
   constraint_at ac_unique2 P (L "users") (L "users_key") = Some (ac_unique true) /\
   ac_unique false <> ac_unique true /\ undeferred (ac_unique false) = undeferred (ac_unique true)).
Proof. exact ex_refused. Qed.
