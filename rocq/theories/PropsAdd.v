(** C93: definitions that only add, compared to a snapshot that describes the database, and
    whether the server carries out the difference.

    C89 and C92 look at the snapshot before every statement.  Here the two snapshots decide:
    nothing is said about the statements, their order, or what is in between. *)
From Verif Require Import Base Text Types Changes SpecSnapshot SpecMerge SpecDiff SnapshotExamples Sql SpecSql History SpecHistory
  HistoryExamples Project Definitions World SpecProject SpecSession ProjectSession WorldExamples Dbh SpecDb DbExamples
  SpecLex SpecStatement SpecServer SpecAccept SpecObey SpecSpelled SpecNull SpecAdd ServerExamples NullExamples AddLemmas AddFlow AddExamples.

(** It is carried out, in whatever order the hash maps are visited, exactly if the keys fit,
    new sequences have values that fit, and new schemas do not have the names of system
    schemas. *)
Theorem C93_adds_iff os ot s t sv :
  wf_db s -> wf_db t -> spelled_db s -> spelled_db t -> described s sv -> keys_fit s ->
  only_adds s t -> new_sayable s t -> indexes_safe s t -> new_sequences_unowned s t ->
  ((exists sv', runs obey (render_sql <$> Diff.compare_diff os ot s t) sv sv') <-> keys_fit t /\ new_valid s t).
Proof.
  exact (fun Hs Ht Ps Pt Hd Hk Had Hn Hix Hq => adds_iff os ot s t sv Hs Ht Ps Pt Hd Had Hn Hix Hq Hk).
Qed.
Print Assumptions C93_adds_iff.

(** Then the database is as the definitions say exactly if NOT NULL is kept as in C92. *)
Theorem C93_adds_carried_out os ot s t sv :
  wf_db s -> wf_db t -> spelled_db s -> spelled_db t -> described s sv ->
  only_adds s t -> new_sayable s t -> indexes_safe s t -> new_sequences_unowned s t -> keys_fit t -> new_valid s t ->
  exists sv', runs obey (render_sql <$> Diff.compare_diff os ot s t) sv sv' /\ (described t sv' <-> nulls_kept s t).
Proof. exact (adds_carried_out os ot s t sv). Qed.
Print Assumptions C93_adds_carried_out.

(** Additions to one table: two that are carried out, of which one ends as defined; a key with
    the name of a table; a sequence that starts below its least value. *)
Example C93_example : (wf_db nl_keyed /\ spelled_db nl_keyed /\ described nl_keyed ad_server /\ keys_fit nl_keyed) /\
  (ad_case ad_kept /\ keys_fit ad_kept /\ new_valid nl_keyed ad_kept /\ nulls_kept nl_keyed ad_kept) /\
  (ad_case ad_good /\ keys_fit ad_good /\ new_valid nl_keyed ad_good /\ ~ nulls_kept nl_keyed ad_good) /\
  (ad_case ad_clash /\ ~ keys_fit ad_clash) /\
  (ad_case ad_bounds /\ keys_fit ad_bounds /\ ~ new_valid nl_keyed ad_bounds).
Proof. exact ex_adds. Qed.

(** That the changes can be applied to the snapshot, and lead to the definitions, is not
    enough, even if they only add. *)
Theorem C93_applied_refuted : exists s t sv, wf_db s /\ wf_db t /\ spelled_db s /\ spelled_db t /\ described s sv /\ keys_fit s /\ only_adds s t /\
  new_sayable s t /\ indexes_safe s t /\ new_sequences_unowned s t /\
  forall os ot, (exists d', apply_all (Diff.compare_diff os ot s t) s = (d', Ok ()) /\ db_equiv d' t) /\
    ~ exists sv', runs obey (render_sql <$> Diff.compare_diff os ot s t) sv sv'.
Proof. exact refute_adds. Qed.
Print Assumptions C93_applied_refuted.

(** ** The commands *)

(** stage, make and up with nothing staged before: the hypotheses of [C92_fresh_iff] about the
    statements follow. *)
Theorem C93_cycle_adds {S : Type} (o : outside S) (view : S -> server)
    (o1 o2 o3 : outside S) dir w name cwd1 cwd2 cwd3 k k1 w1 k2 k2' w2 k3 k3' w3 t stg0 stg db tb row d0 :
  reads_base o -> codec o -> obedient (World.statement o) view ->
  schema_ident o new_schema = Some new_schema ->
  workspace o dir w -> same_reader o o1 -> same_machine o o2 -> same_machine o o3 ->
  nearest (files w) cwd1 dir -> nearest (files w1) cwd2 dir -> nearest (files w2) cwd3 dir ->
  load_definitions o (below (definitions_of dir) (files w)) = Ret t ->
  cmd_stage o1 cwd1 (L "database") (k, w) = (Ret (), (k1, w1)) ->
  stored (history_at o (history_of dir) (files w1)) (L "stage") stg -> v_changes stg <> [] ->
  files w1 !! (history_of dir ++ [made_name (now o2) name ++ L ".yaml"]) = None -> plain_name (made_name (now o2) name) ->
  cmd_make o2 cwd2 (L "database") name (k2, w1) = (Ret (), (k2', w2)) ->
  cmd_up o3 cwd3 (L "database") None (k3, w2) = (Ret (), (k3', w3)) ->
  servers w !! new_url = Some db -> finds db new_schema tb -> newest (t_rows tb) row ->
  stored (history_at o (history_of dir) (files w)) (L "stage") stg0 -> v_changes stg0 = [] ->
  v_previous stg0 = Some (v_name (r_version row)) ->
  calculate_snapshot (history_at o (history_of dir) (files w)) (v_name (r_version row)) = Ret d0 ->
  calculate_snapshot (history_at o (history_of dir) (files w1)) (v_name (r_version row)) = Ret d0 ->
  described d0 (view (pg_user db)) -> spelled_db d0 -> spelled_db t ->
  only_adds d0 t -> keys_fit t -> new_sayable d0 t -> new_valid d0 t -> indexes_safe d0 t -> new_sequences_unowned d0 t ->
  exists db', servers w3 !! new_url = Some db' /\ (described t (view (pg_user db')) <-> nulls_kept d0 t).
Proof.
  exact (fun Hb Hc Ho => cycle_adds o view Hb Hc Ho o1 o2 o3 dir w name cwd1 cwd2 cwd3 k k1 w1 k2 k2' w2 k3 k3' w3 t stg0 stg db tb row d0).
Qed.
Print Assumptions C93_cycle_adds.

Example C93_cycle_example : nl_session nl_keyed /\
  (wf_db sv_init /\ spelled_db sv_init /\ described sv_init fresh /\ spelled_db nl_keyed) /\
  only_adds sv_init nl_keyed /\ keys_fit nl_keyed /\ new_sayable sv_init nl_keyed /\ new_valid sv_init nl_keyed /\
  indexes_safe sv_init nl_keyed /\ new_sequences_unowned sv_init nl_keyed.
Proof. exact ex_cycle_adds. Qed.
