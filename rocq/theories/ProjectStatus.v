(** What status reports, and how main ends. *)
From Verif Require Import Base Text Types Changes SpecSnapshot Diff SpecDiff DiffSame Sql History SpecHistory HistoryLemmas HistoryProofs
  HistoryRun HistoryClaims Dbh SpecDb DbLemmas DbRun DbClaims Expand Project Definitions SpecDefinitions DefinitionsLemmas World SpecProject ProjectLemmas WorldLemmas
  ProjectProofs ProjectReady.

Section status.
  Context {S : Type} (o : outside S).
  Notation st := (setting_of o).

  (** Asking for the version changes nothing. *)
  Lemma current_reads schema k (s : session S) :
    (db_current_version (schema_ident o) schema (k, s)).2.2 = s.
  Proof.
    unfold db_current_version, ibind, meta_schema_exists, istep. destruct k as [|k]; [done|].
    case_bool_decide as Hex; [|by destruct k].
    unfold ask_table, on_table, istep. destruct k as [|k]; [done|].
    destruct (schema_ident o schema) as [n|]; [|done].
    destruct (pg_schemas (working s) !! n) as [[t|]|] eqn:Hn; [|done..].
    cbn [snd]. destruct s as [c [u m]]. cbn [working pg_schemas pg_user committed] in *. by rewrite insert_id.
  Qed.
  Lemma database_version_reads url schema k w r k' w' :
    database_version o url schema (k, w) = (r, (k', w')) -> w' = w.
  Proof.
    unfold database_version, on_server. destruct (servers w !! url) as [db|] eqn:Hdb; [|by intros [= _ _ <-]].
    unfold ibind. pose proof (current_reads schema k (Session db db)) as Hr.
    destruct (db_current_version (schema_ident o) schema (k, Session db db)) as [x [k0 s0]].
    cbn [snd] in Hr. subst s0.
    assert (Hw : World (files w) (<[url := rolled_back (Session db db)]> (servers w)) = w).
    { rewrite rolled_back_same. destruct w as [f s]. cbn [files servers] in *. by rewrite insert_id. }
    destruct x; cbn [iret]; intros [= _ _ <-]; exact Hw.
  Qed.
  Lemma database_version_ret url schema k w r k' w' db t row :
    schema_ident o schema = Some schema ->
    servers w !! url = Some db -> has_table db schema t -> NoDup (r_order <$> t_rows t) ->
    newest (t_rows t) row ->
    database_version o url schema (k, w) = (r, (k', w')) -> r <> Killed -> r = Ret (Ret (row_name row)).
  Proof.
    intros Hid Hdb Ht Hnd Hnew. unfold database_version, on_server. rewrite Hdb.
    unfold ibind, db_current_version, ibind, meta_schema_exists, istep.
    destruct k as [|k]; [by intros [= <- _ _]|].
    unfold has_table in Ht. cbn [working]. rewrite bool_decide_true by (rewrite Ht; eauto).
    unfold ask_table, on_table, istep. destruct k as [|k]; [by intros [= <- _ _]|].
    rewrite Hid. cbn [working]. rewrite Ht.
    destruct (newest_head _ _ Hnd Hnew) as [rest Hrest]. rewrite Hrest. cbn [iret].
    by intros [= <- _ _] _.
  Qed.
  Lemma database_version_outcome url schema k w r k' w' :
    database_version o url schema (k, w) = (r, (k', w')) -> r <> Killed -> exists v, r = Ret v.
  Proof.
    unfold database_version, on_server. destruct (servers w !! url) as [db|] eqn:Hdb; [|intros [= <- _ _]; eauto].
    unfold ibind, db_current_version, ibind, meta_schema_exists, istep.
    destruct k as [|k]; [by intros [= <- _ _]|]. case_bool_decide.
    - unfold ask_table, on_table, istep. destruct k as [|k]; [by intros [= <- _ _]|].
      destruct (schema_ident o schema) as [n|]; [|intros [= <- _ _]; eauto].
      destruct (pg_schemas _ !! n) as [[t|]|]; [|intros [= <- _ _]; eauto..].
      destruct (newest_first (t_rows t)); intros [= <- _ _]; eauto.
    - intros [= <- _ _]; eauto.
  Qed.

  Lemma status_exact cwd name p dp k w r k' w' t :
    profile_at st (files w) cwd name p -> profile_at st (files w) cwd (L "database") dp ->
    is_directory (files w) (p_history dp) = true ->
    reachable (history_at o (p_history dp) (files w)) ->
    load_definitions o (below (p_definitions dp) (files w)) = Ret t ->
    cmd_status o cwd name (k, w) = (r, (k', w')) ->
    w' = w /\ (r <> Killed ->
    exists rep stage source, r = Ret rep /\
      stored (history_at o (p_history dp) (files w)) (L "stage") stage /\
      calculate_snapshot (history_at o (p_history dp) (files w)) (L "stage") = Ret source /\
      staged rep = v_changes stage /\
      not_staged rep = compare_diff (order_source o) (order_target o) source t /\
      (not_staged rep = [] <-> db_same source t) /\
      (forall db tbl row,
         schema_ident o (p_metadata_schema p) = Some (p_metadata_schema p) ->
         servers w !! p_database_url p = Some db -> has_table db (p_metadata_schema p) tbl ->
         NoDup (r_order <$> t_rows tbl) -> newest (t_rows tbl) row ->
         on_version rep = Ret (row_name row))).
  Proof.
    intros Hp Hdp Hdir Hreach Hload Hrun. pose proof (load_definition_files_wf _ _ _ Hload) as Hwf.
    set (d := history_at o (p_history dp) (files w)) in *.
    destruct (resolve_two o w cwd name (L "database") p dp Hp Hdp) as (proj & Hd & Hg & Hg').
    destruct (reachable_linear d Hreach) as (made & stg & Hlin).
    destruct (linear_loads (listing_of o) d made stg Hlin) as (h & Hh & _).
    pose proof (linear_stage d made stg Hlin) as Hst.
    destruct (linear_calculates d made stg Hlin) as (source & Hsrc).
    assert (Hrun2 : cmd_status o cwd name (k, w) =
      (do current <- database_version o (p_database_url p) (p_metadata_schema p);
       iret (Report current (v_changes stg) (compare_diff (order_source o) (order_target o) source t))) (k, w)).
    { unfold cmd_status, discovered, resolved, ibind at 1, iread at 1. cbn [snd]. rewrite Hd.
      unfold resolve_default_history_dir, resolve_default_definitions_dir, DEFAULT_PROFILE.
      unfold ibind at 1, iread at 1, resolve_history_dir. rewrite Hg'. unfold ebind at 1.
      unfold ibind at 1, iread at 1, resolve_definitions_dir. rewrite Hg'. unfold ebind at 1.
      unfold ibind at 1, iread at 1, resolve_database_url. rewrite Hg. unfold ebind at 1.
      unfold ibind at 1, iread at 1. cbn [snd]. rewrite Hdir. fold d.
      unfold ibind at 1, iread at 1. rewrite Hh.
      unfold ibind at 1, iread at 1. cbn [snd]. rewrite Hload.
      unfold ibind at 1, iread at 1. rewrite Hst.
      unfold ibind at 1, iread at 1. rewrite Hsrc.
      unfold ibind at 1, iread at 1, resolve_metadata_schema. rewrite Hg. reflexivity. }
    rewrite Hrun2 in Hrun. unfold ibind in Hrun.
    destruct (database_version o (p_database_url p) (p_metadata_schema p) (k, w)) as [x [k1 w1]] eqn:Hv.
    pose proof (database_version_reads _ _ _ _ _ _ _ Hv) as ->.
    assert (Hw' : w' = w) by (destruct x; by injection Hrun as _ _ <-).
    split; [exact Hw'|]. intros Hnk.
    assert (Hx : x <> Killed) by (intros ->; injection Hrun as <- _ _; done).
    destruct (database_version_outcome _ _ _ _ _ _ _ Hv Hx) as [v ->].
    injection Hrun as <- _ _. eexists _, stg, source. split; [done|].
    split; [by apply get_version_iff|]. split; [done|]. split; [done|]. split; [done|]. split.
    - cbn [not_staged]. apply diff_empty_iff; [|done]. by eapply linear_snapshot_wf.
    - intros db tbl row Hid Hdb Ht Hnd Hnew. cbn [on_version].
      pose proof (database_version_ret _ _ _ _ _ _ _ _ _ _ Hid Hdb Ht Hnd Hnew Hv Hx) as Heq. by injection Heq.
  Qed.

  (** What [status] depends on. *)
  Lemma database_version_local url schema k (w w2 : world S) :
    servers w !! url = servers w2 !! url ->
    (database_version o url schema (k, w)).1 = (database_version o url schema (k, w2)).1 /\
    (database_version o url schema (k, w)).2.1 = (database_version o url schema (k, w2)).2.1.
  Proof.
    intros H. unfold database_version, on_server. rewrite <- H. destruct (servers w !! url) as [db|]; [|done].
    destruct (ibind _ _ _) as [[x|e| | |] [k0 s0]]; done.
  Qed.
  Definition status_at (p dp : profile) (fs : filesystem) : io (world S) report :=
    do d <- iread (fun _ => if is_directory fs (p_history dp) then Ret (history_at o (p_history dp) fs) else Raise FileError);
    do _ <- iread (fun _ => from_dir (listing_of o) d);
    do target <- iread (fun _ => load_definitions o (below (p_definitions dp) fs));
    do v <- iread (fun _ => get_version d STAGE);
    do source <- iread (fun _ => calculate_snapshot d STAGE);
    do current <- database_version o (p_database_url p) (p_metadata_schema p);
    iret (Report current (v_changes v) (compare_diff (order_source o) (order_target o) source target)).
  Lemma status_run cwd name p dp k w :
    profile_at st (files w) cwd name p -> profile_at st (files w) cwd (L "database") dp ->
    cmd_status o cwd name (k, w) = status_at p dp (files w) (k, w).
  Proof.
    intros Hp Hdp. destruct (resolve_two o w cwd name (L "database") p dp Hp Hdp) as (proj & Hd & Hg & Hg').
    unfold cmd_status, discovered, resolved, ibind at 1, iread at 1. cbn [snd]. rewrite Hd.
    unfold resolve_default_history_dir, resolve_default_definitions_dir, DEFAULT_PROFILE.
    unfold ibind at 1, iread at 1, resolve_history_dir. rewrite Hg'. unfold ebind at 1.
    unfold ibind at 1, iread at 1, resolve_definitions_dir. rewrite Hg'. unfold ebind at 1.
    unfold ibind at 1, iread at 1, resolve_database_url. rewrite Hg. unfold ebind at 1.
    unfold resolve_metadata_schema. rewrite Hg. unfold status_at, ibind, iread. cbn [snd].
    destruct (if is_directory _ _ then _ else _); [|done..].
    destruct (from_dir _ _); [|done..]. destruct (load_definitions _ _); [|done..].
    destruct (get_version _ _); [|done..]. destruct (calculate_snapshot _ _); done.
  Qed.
  Lemma status_local_exact cwd name p dp k w r k' w' :
    profile_at st (files w) cwd name p -> profile_at st (files w) cwd (L "database") dp ->
    cmd_status o cwd name (k, w) = (r, (k', w')) ->
    w' = w /\
    forall w2 dp2, profile_at st (files w2) cwd name p -> profile_at st (files w2) cwd (L "database") dp2 ->
      p_history dp2 = p_history dp -> p_definitions dp2 = p_definitions dp ->
      same_at (p_history dp) (files w) (files w2) -> same_at (p_definitions dp) (files w) (files w2) ->
      servers w !! p_database_url p = servers w2 !! p_database_url p ->
      cmd_status o cwd name (k, w2) = (r, (k', w2)).
  Proof.
    intros Hp Hdp Hm. rewrite (status_run cwd name p dp) in Hm by done.
    assert (forall fs (v : world S), (status_at p dp fs (k, v)).2.2 = v) as Hsame.
    { intros fs v. unfold status_at, ibind, iread. cbn [snd].
      destruct (if is_directory _ _ then _ else _); [|done..].
      destruct (from_dir _ _); [|done..]. destruct (load_definitions _ _); [|done..].
      destruct (get_version _ _); [|done..]. destruct (calculate_snapshot _ _); [|done..].
      destruct (database_version _ _ _ _) as [x [k1 w1]] eqn:E. apply database_version_reads in E as ->. by destruct x. }
    split; [by rewrite <- (Hsame (files w) w), Hm|].
    intros w2 dp2 Hp2 Hdp2 Hh2 Hd2 Hs1 Hs2 Heq. rewrite (status_run cwd name p dp2) by done.
    assert (status_at p dp2 (files w2) (k, w2) = status_at p dp (files w) (k, w2)) as ->.
    { unfold status_at. rewrite Hh2, Hd2.
      by rewrite (is_directory_same _ _ _ Hs1), (history_at_same o _ _ _ Hs1), (below_same _ _ _ Hs2). }
    assert ((status_at p dp (files w) (k, w2)).1 = r /\ (status_at p dp (files w) (k, w2)).2.1 = k') as [H1 H2].
    { revert Hm. unfold status_at, ibind, iread. cbn [snd].
      destruct (if is_directory _ _ then _ else _); [|by intros [= <- <- _]..].
      destruct (from_dir _ _); [|by intros [= <- <- _]..]. destruct (load_definitions _ _); [|by intros [= <- <- _]..].
      destruct (get_version _ _); [|by intros [= <- <- _]..]. destruct (calculate_snapshot _ _); [|by intros [= <- <- _]..].
      destruct (database_version_local (p_database_url p) (p_metadata_schema p) k w w2 Heq) as [K1 K2].
      destruct (database_version _ _ _ (k, w)) as [x [k1 w1]], (database_version _ _ _ (k, w2)) as [x2 [k2 w3]].
      simpl in K1, K2. subst. destruct x2; by intros [= <- <- _]. }
    pose proof (Hsame (files w) w2) as H3. destruct (status_at p dp (files w) (k, w2)) as [x [k1 w1]]. simpl in *. by subst.
  Qed.
End status.
