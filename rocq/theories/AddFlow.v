(** Definitions that only add, staged, made and applied. *)
From Verif Require Import Base Text Types Changes SpecSnapshot SpecMerge SpecDiff Diff Sql History SpecHistory HistoryLemmas
  HistoryProofs HistoryRun HistoryClaims Dbh SpecDb DbChain DbProofs Expand Project Definitions SpecDefinitions DefinitionsLemmas
  World SpecProject ProjectLemmas WorldLemmas ProjectProofs ProjectReady ProjectStatus SpecSession ProjectSession ProjectFlow
  SpecSql SpecLex SpecStatement SpecServer SpecSpelled SpecNull SpecAccept SpecObey SpecAdd ObeyLemmas ObeyFlow NullFlow AddLemmas.

Lemma snapshot_wf d n d0 : reachable d -> calculate_snapshot d n = Ret d0 -> wf_db d0.
Proof.
  intros Hre H. destruct (snapshot_stored _ _ _ Hre H) as [v Hv].
  destruct (path_snapshot d n [] n [] d0 Hre) as (d1 & E & Hwf & Ha & _); [by eapply path_here|constructor|done|].
  done.
Qed.
Section flow.
  Context {S : Type} (o : outside S) (view : S -> server).
  Hypothesis Hbase : reads_base o.
  Hypothesis Hcodec : codec o.
  Hypothesis Hobey : obedient (World.statement o) view.

  Lemma cycle_adds (o1 o2 o3 : outside S) dir w name cwd1 cwd2 cwd3 k k1 w1 k2 k2' w2 k3 k3' w3 t stg0 stg db tb row d0 :
    schema_ident o new_schema = Some new_schema ->
    workspace o dir w -> same_reader o o1 -> same_machine o o2 -> same_machine o o3 ->
    nearest (files w) cwd1 dir -> nearest (files w1) cwd2 dir -> nearest (files w2) cwd3 dir ->
    load_definitions o (below (definitions_of dir) (files w)) = Ret t ->
    cmd_stage o1 cwd1 (L "database") (k, w) = (Ret (), (k1, w1)) ->
    stored (history_at o (history_of dir) (files w1)) (L "stage") stg -> v_changes stg <> [] ->
    files w1 !! (history_of dir ++ [made_name (now o2) name ++ L ".yaml"]) = None -> plain_name (made_name (now o2) name) ->
    cmd_make o2 cwd2 (L "database") name (k2, w1) = (Ret (), (k2', w2)) ->
    cmd_up o3 cwd3 (L "database") None (k3, w2) = (Ret (), (k3', w3)) ->
    servers w !! new_url = Some db -> finds db new_schema tb -> newest (t_rows tb) row ->
    stored (history_at o (history_of dir) (files w)) (L "stage") stg0 -> v_changes stg0 = [] ->
    v_previous stg0 = Some (v_name (r_version row)) ->
    calculate_snapshot (history_at o (history_of dir) (files w)) (v_name (r_version row)) = Ret d0 ->
    calculate_snapshot (history_at o (history_of dir) (files w1)) (v_name (r_version row)) = Ret d0 ->
    described d0 (view (pg_user db)) -> spelled_db d0 -> spelled_db t ->
    only_adds d0 t -> keys_fit t -> new_sayable d0 t -> new_valid d0 t -> indexes_safe d0 t -> new_sequences_unowned d0 t ->
    exists db', servers w3 !! new_url = Some db' /\ (described t (view (pg_user db')) <-> nulls_kept d0 t).
  Proof.
    intros Hid Hw Hr1 Hm2 Hm3 Hn1 Hn2 Hn3 Hl H1 Hstg Hne Hfresh Hplain H2 H3 Hdb Htb Hrow Hstg0 Hnil Hprev H00 H0 Hde Sd0 St
      Had Hk Hn Hv Hix Hsq.
    pose proof (snapshot_wf _ _ _ (workspace_reachable o Hbase Hcodec dir w Hw) H00) as Hwf.
    pose proof (load_definition_files_wf _ _ _ Hl) as Hwt.
    destruct (adds_run (order_source o1) (order_target o1) d0 t Hwf Hwt Had Hix Hsq) as [Ha He].
    eapply (cycle_fresh o view Hbase Hcodec Hobey o1 o2 o3 dir w name cwd1 cwd2 cwd3 k k1 w1 k2 k2' w2 k3 k3' w3 t stg0 stg db tb row d0);
      try eassumption.
    - intros n x a b K1 K2 _. destruct Had as (_ & _ & A3 & _). destruct (A3 _ _ _ K1) as [[? ?]|K]; [done|congruence].
    - apply (adds_faithful d0 t); [exact Hn|]. exact (diff_added d0 t Hwf Hwt Had _ _).
    - exact (adds_accepted _ _ d0 t _ Hwf Hwt Had Hk Hn Hv Ha He).
  Qed.
End flow.
