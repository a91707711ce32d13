(** C94: additions, carried out by the server and taken back.

    C87 and C89 look at the snapshot before every statement of the way back.  Here the two
    snapshots decide: nothing is said about the statements, their order, or what is in
    between. *)
From Verif Require Import Base Text Types Changes SpecSnapshot SpecMerge SpecDiff Diff SnapshotExamples Sql SpecSql History SpecHistory
  HistoryExamples Dbh SpecDb DbExamples SpecLex SpecStatement SpecServer SpecAccept SpecObey SpecSpelled SpecNull SpecAdd SpecTakeBack
  ServerExamples NullExamples AddLemmas TakeBackLemmas TakeBackFlow AddExamples TakeBackExamples.

(** What was added is taken back, in whatever order the hash maps were visited, and the
    database is as it was described before exactly if no column that was there already got
    NOT NULL from a new key. *)
Theorem C94_taken_back os ot s t sv sv1 rs :
  wf_db s -> wf_db t -> spelled_db s -> spelled_db t -> described s sv ->
  only_adds s t -> new_sayable s t -> indexes_safe s t -> new_sequences_unowned s t -> self_contained s -> new_unused s t ->
  collect_reverts (compare_diff os ot s t) s = Some rs -> runs obey (render_sql <$> compare_diff os ot s t) sv sv1 ->
  exists sv2, runs obey (render_sql <$> reverse rs) sv1 sv2 /\ (described s sv2 <-> old_nulls_kept s t).
Proof.
  exact (fun Hs Ht Ps Pt Hd Had Hn Hix Hq Hsc Hun => adds_taken_back os ot s t sv Hs Ht Ps Pt Hd Had Hn Hix Hq Hsc Hun sv1 rs).
Qed.
Print Assumptions C94_taken_back.

Example C94_example : (wf_db nl_keyed /\ spelled_db nl_keyed /\ described nl_keyed ad_server /\ keys_fit nl_keyed) /\
  ad_case ad_good /\ (self_contained nl_keyed /\ new_unused nl_keyed ad_good /\ old_nulls_kept nl_keyed ad_good) /\
  forall os ot, exists rs sv1, collect_reverts (compare_diff os ot nl_keyed ad_good) nl_keyed = Some rs /\
    runs obey (render_sql <$> compare_diff os ot nl_keyed ad_good) ad_server sv1.
Proof. exact ex_taken_back. Qed.

(** It is not always as it was: a primary key that is added and dropped leaves its columns
    with NOT NULL. *)
Theorem C94_null_refuted : exists s t sv, wf_db s /\ wf_db t /\ spelled_db s /\ spelled_db t /\ described s sv /\
  only_adds s t /\ new_sayable s t /\ indexes_safe s t /\ new_sequences_unowned s t /\ self_contained s /\ new_unused s t /\
  forall os ot, exists rs sv1 sv2, collect_reverts (compare_diff os ot s t) s = Some rs /\
    runs obey (render_sql <$> compare_diff os ot s t) sv sv1 /\ runs obey (render_sql <$> reverse rs) sv1 sv2 /\ ~ described s sv2.
Proof. exact refute_null. Qed.
Print Assumptions C94_null_refuted.

(** Nor is it always taken back: a new index on a new column goes with the column, and then
    there is no index to drop.  The snapshot goes back all the same. *)
Theorem C94_indexed_refuted : exists os ot s t sv rs sv1, wf_db s /\ wf_db t /\ spelled_db s /\ spelled_db t /\ described s sv /\
  only_adds s t /\ new_sayable s t /\ indexes_safe s t /\ new_sequences_unowned s t /\ self_contained s /\
  collect_reverts (compare_diff os ot s t) s = Some rs /\ runs obey (render_sql <$> compare_diff os ot s t) sv sv1 /\
  (exists d', apply_all (compare_diff os ot s t) s = (d', Ok ()) /\ apply_all (reverse rs) d' = (s, Ok ())) /\
  ~ exists sv2, runs obey (render_sql <$> reverse rs) sv1 sv2.
Proof. exact refute_indexed. Qed.
Print Assumptions C94_indexed_refuted.

(** ** The commands *)

(** The condition of C87 about the way back holds of versions that only add. *)
Theorem C94_versions d vs : wf_db d -> additions d vs -> taken_back d vs.
Proof. exact (additions_taken_back d vs). Qed.
Print Assumptions C94_versions.

(** down over any number of versions that only add. *)
Theorem C94_down {S : Type} (sem : str -> S -> option S) (view : S -> server) (ident : str -> option str) (schema : str)
    d version k db db' :
  ident schema = Some schema -> obedient sem view ->
  together sem ident schema (fun n => n <> L "stage") d db ->
  run (down sem ident schema version) k db = (Ret (), db') ->
  exists t cur, finds db schema t /\ newest (t_rows t) cur /\
    ((version = None /\ v_previous (r_version cur) = None /\ db' = db) \/
     exists to names vs, match version with Some n => to = n | None => v_previous (r_version cur) = Some to end /\
       SpecHistory.path d to names (v_name (r_version cur)) /\ Forall2 (stored d) names vs /\
       forall d0 d1, calculate_snapshot d to = Ret d0 -> calculate_snapshot d (v_name (r_version cur)) = Ret d1 ->
         described d1 (view (pg_user db)) -> additions d0 vs -> described d0 (view (pg_user db'))).
Proof. exact (fun Hi Ho => down_additions sem view ident schema Hi Ho d version k db db'). Qed.
Print Assumptions C94_down.

Example C94_down_example : together pg_sem pg_ident podo (fun n => n <> L "stage") tk_d4 tk_pg2 /\
  pg_down (Some (L "init")) tk_pg2 = (Ret (), tk_pg4) /\
  SpecHistory.path tk_d4 (L "init") sv_names (L "20240102_093000-users") /\ Forall2 (stored tk_d4) sv_names tk_versions /\
  calculate_snapshot tk_d4 (L "init") = Ret sv_init /\
  calculate_snapshot tk_d4 (L "20240102_093000-users") = Ret ad_kept /\
  described ad_kept (pg_user tk_pg2) /\ additions sv_init tk_versions /\
  length (all_changes tk_versions) = 11.
Proof. exact ex_down_additions. Qed.

(** up over a version that only adds, and down again. *)
Theorem C94_up_down {S : Type} (sem : str -> S -> option S) (view : S -> server) (ident : str -> option str) (schema : str)
    l d version k db db1 k' db2 t cur :
  ident schema = Some schema -> obedient sem view ->
  reachable d -> migrated sem ident schema db -> finds db schema t -> newest (t_rows t) cur ->
  run (up sem ident l d schema version) k db = (Ret (), db1) ->
  run (down sem ident schema (Some (v_name (r_version cur)))) k' db1 = (Ret (), db2) ->
  exists to names vs, target d version to /\ SpecHistory.path d (v_name (r_version cur)) names to /\ Forall2 (stored d) names vs /\
    forall v os ot d0 t0, vs = [v] -> v_changes v = compare_diff os ot d0 t0 ->
      calculate_snapshot d (v_name (r_version cur)) = Ret d0 -> described d0 (view (pg_user db)) ->
      wf_db t0 -> spelled_db d0 -> spelled_db t0 -> only_adds d0 t0 -> new_sayable d0 t0 -> indexes_safe d0 t0 ->
      new_sequences_unowned d0 t0 -> keys_fit t0 -> new_valid d0 t0 -> self_contained d0 -> new_unused d0 t0 ->
      (described d0 (view (pg_user db2)) <-> old_nulls_kept d0 t0).
Proof. exact (fun Hi Ho => up_down_additions sem view ident schema Hi Ho l d version k db db1 k' db2 t cur). Qed.
Print Assumptions C94_up_down.

Example C94_up_down_example : (reachable tk_d4 /\ migrated pg_sem pg_ident podo tk_pg1) /\
  (finds tk_pg1 podo tk_rows /\ newest (t_rows tk_rows) tk_newest /\ v_name (r_version tk_newest) = tk_first) /\
  pg_up tk_d4 None tk_pg1 = (Ret (), tk_pg2) /\ pg_down (Some tk_first) tk_pg2 = (Ret (), tk_pg3) /\
  v_changes (named_in tk_d4 (made_name t2 (Some (L "users")))) = compare_diff any_order table_first nl_keyed ad_kept /\
  calculate_snapshot tk_d4 tk_first = Ret nl_keyed /\ pg_user tk_pg1 = ad_server /\ described nl_keyed ad_server /\
  ad_case ad_kept /\ keys_fit ad_kept /\ new_valid nl_keyed ad_kept /\ self_contained nl_keyed /\ new_unused nl_keyed ad_kept.
Proof. exact ex_up_down_additions. Qed.
