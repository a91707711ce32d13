(** What staging, making and migrating do to a database that a snapshot describes. *)
From Verif Require Import Base Text Types Changes SpecSnapshot SpecMerge SpecDiff Diff Sql History SpecHistory HistoryLemmas
  HistoryProofs HistoryRun HistoryClaims Dbh SpecDb DbChain DbProofs Expand Project Definitions SpecDefinitions DefinitionsLemmas
  World SpecProject ProjectLemmas WorldLemmas ProjectProofs ProjectReady ProjectStatus SpecSession ProjectSession ProjectFlow
  SpecSql SpecLex SpecStatement SpecServer SpecAccept SpecObey ServerLemmas ObeyLemmas.

Lemma snapshot_stored d n d0 : reachable d -> calculate_snapshot d n = Ret d0 -> exists v, stored d n v.
Proof.
  intros Hre H. destruct (reachable_dir d Hre) as [Hw _]. unfold calculate_snapshot in H.
  destruct (get_upward_range d INIT n) as [l| | | |] eqn:E; try done.
  apply range_named_iff in E as [Hp _]; [|done]. by eapply path_end_stored.
Qed.

Section flow.
  Context {S : Type} (o : outside S) (view : S -> server).
  Hypothesis Hbase : reads_base o.
  Hypothesis Hcodec : codec o.
  Hypothesis Hobey : obedient (World.statement o) view.

  Lemma cycle_described (o1 o2 o3 : outside S) dir w name cwd1 cwd2 cwd3 k k1 w1 k2 k2' w2 k3 k3' w3 t stg db tb row d0 :
    schema_ident o new_schema = Some new_schema ->
    workspace o dir w -> same_reader o o1 -> same_machine o o2 -> same_machine o o3 ->
    nearest (files w) cwd1 dir -> nearest (files w1) cwd2 dir -> nearest (files w2) cwd3 dir ->
    load_definitions o (below (definitions_of dir) (files w)) = Ret t ->
    cmd_stage o1 cwd1 (L "database") (k, w) = (Ret (), (k1, w1)) ->
    stored (history_at o (history_of dir) (files w1)) (L "stage") stg -> v_changes stg <> [] ->
    files w1 !! (history_of dir ++ [made_name (now o2) name ++ L ".yaml"]) = None -> plain_name (made_name (now o2) name) ->
    cmd_make o2 cwd2 (L "database") name (k2, w1) = (Ret (), (k2', w2)) ->
    cmd_up o3 cwd3 (L "database") None (k3, w2) = (Ret (), (k3', w3)) ->
    servers w !! new_url = Some db -> finds db new_schema tb -> newest (t_rows tb) row ->
    v_previous stg = Some (v_name (r_version row)) ->
    calculate_snapshot (history_at o (history_of dir) (files w1)) (v_name (r_version row)) = Ret d0 ->
    described d0 (view (pg_user db)) ->
    Forall well_spelled (v_changes stg) -> faithful d0 (v_changes stg) -> acceptable d0 (v_changes stg) ->
    exists db' source, servers w3 !! new_url = Some db' /\
      calculate_snapshot (history_at o (history_of dir) (files w)) (L "stage") = Ret source /\
      described (expected_db source t) (view (pg_user db')) /\
      (index_attributes_agree source t -> new_sequences_unowned source t -> described t (view (pg_user db'))).
  Proof.
    intros Hid Hw Hr1 Hm2 Hm3 Hn1 Hn2 Hn3 Hl H1 Hstg Hne Hfresh Hplain H2 H3 Hdb Htb Hrow Hprev H0 Hde Hws Hf Hac.
    pose proof (reader_machine o o1 Hr1) as Hm1.
    destruct (flow_stage o Hbase Hcodec o1 dir w cwd1 k (Ret ()) k1 w1 t Hw Hr1 Hn1 Hl H1) as (Hsv1 & Hdef & Hst).
    assert (workspace o dir w1) as Hw1 by (eapply workspace_command; [exact Hw|exact Hm1|exact Hn1|apply project_stage|exact H1|done]).
    pose proof (workspace_reachable o Hbase Hcodec dir w Hw) as Hreach.
    pose proof (workspace_reachable o Hbase Hcodec dir w1 Hw1) as Hreach1.
    destruct (reachable_stage _ Hreach) as (stg0 & Hstg0 & _).
    pose proof (load_definition_files_wf _ _ _ Hl) as Hwt.
    destruct (stage_exact _ _ _ _ _ _ _ _ _ Hreach Hstg0 Hwt Hst) as (source & stg' & Hsrc & Hws' & Hstg' & _ & _ & _ & Hsrc' & _ & Hequiv).
    assert (Hdb1 : servers w1 !! new_url = Some db) by (by rewrite Hsv1).
    destruct (up_made o Hbase Hcodec o2 o3 dir w1 name cwd2 cwd3 k2 k2' w2 k3 k3' w3 stg db row tb) as (db' & Hdb' & R); try done.
    clear H1 H2 H3. exists db', source. split; [done|]. split; [done|].
    assert (Hp : SpecHistory.path (history_at o (history_of dir) (files w1)) (v_name (r_version row)) [L "stage"] (L "stage")).
    { apply (path_step _ _ [] (v_name (r_version row)) _ stg); [|done|done].
      destruct (snapshot_stored _ _ _ Hreach1 H0) as [v Hv]. by eapply path_here. }
    destruct (path_snapshot _ _ _ _ [stg] d0 Hreach1 Hp) as (d1 & Hd1 & Hwf & Ha & _); [constructor; [exact Hstg|constructor]|done|].
    rewrite Hsrc' in Hd1. injection Hd1 as <-.
    assert (all_changes [stg] = v_changes stg) as Eall by (unfold all_changes; cbn; by rewrite app_nil_r).
    rewrite Eall in Ha.
    assert (Hend : described (expected_db source t) (view (pg_user db'))) by (by eapply obedient_described).
    split; [done|]. intros Hix Hsq. eapply described_equiv; [|by apply Hequiv|done]. by eapply apply_all_wf.
  Qed.
End flow.
