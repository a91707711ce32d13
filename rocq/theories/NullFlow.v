(** What is accepted, and what becomes of NOT NULL when versions are staged, made and applied. *)
From Verif Require Import Base Text Types Changes SpecSnapshot SpecMerge SpecDiff Diff Sql History SpecHistory HistoryLemmas
  HistoryProofs HistoryRun HistoryClaims Dbh SpecDb DbChain DbProofs Expand Project Definitions SpecDefinitions DefinitionsLemmas
  World SpecProject ProjectLemmas WorldLemmas ProjectProofs ProjectReady ProjectStatus SpecSession ProjectSession ProjectFlow
  SpecSql SpecLex SpecStatement SpecServer SpecSpelled SpecNull SpecAccept SpecObey ApplyLemmas SayLemmas ServerLemmas AcceptLemmas ObeyLemmas ObeyFlow
  NullLemmas NullDiff.

Lemma table_at_renull N d s t : table_at (renull N d) s t <-> table_at d s t.
Proof.
  unfold table_at, is_table. rewrite relation_at_renull.
  destruct (relation_at d s t) as [[| | |]|]; split; intros [? ?]; by try eexists.
Qed.
Lemma relation_none_renull N d s t : relation_at (renull N d) s t = None <-> relation_at d s t = None.
Proof. rewrite relation_at_renull. by destruct (relation_at d s t). Qed.
Lemma index_renull N d s t i : relation_at (renull N d) s t = Some (RIndex i) <-> relation_at d s t = Some (RIndex i).
Proof. rewrite relation_at_renull. by destruct (relation_at d s t) as [[| | |]|]. Qed.
Lemma sequence_renull N d s t i : relation_at (renull N d) s t = Some (RSequence i) <-> relation_at d s t = Some (RSequence i).
Proof. rewrite relation_at_renull. by destruct (relation_at d s t) as [[| | |]|]. Qed.
Lemma function_at_renull N d s f : function_at (renull N d) s f = function_at d s f.
Proof. unfold function_at, renull. cbn. rewrite lookup_fmap. by destruct (db_schemas d !! s). Qed.
Lemma column_some_renull N d s t x : wf_db d -> is_Some (column_at (renull N d) s t x) <-> is_Some (column_at d s t x).
Proof. intros Hwf. rewrite column_at_renull by done. by destruct (column_at d s t x). Qed.

Lemma accepted_renull N c d : wf_db d -> accepted (as_said c) (renull N d) <-> accepted c d.
Proof.
  intros Hwf.
  assert (Hfree : forall s n, name_free (renull N d) s n <-> name_free d s n).
  { intros s n. unfold name_free. rewrite relation_none_renull. by setoid_rewrite constraint_at_renull. }
  assert (Hcols : forall s t cs, columns_exist (renull N d) s t cs <-> columns_exist d s t cs).
  { intros s t cs. unfold columns_exist. rewrite !Forall_forall. by setoid_rewrite (column_some_renull N d s t _ Hwf). }
  assert (Href : forall but s t P, referenced (renull N d) but s t P <-> referenced d but s t P).
  { intros but s t P. unfold referenced. by setoid_rewrite constraint_at_renull. }
  assert (Hck : forall s t P, checked (renull N d) s t P <-> checked d s t P).
  { intros s t P. unfold checked. by setoid_rewrite constraint_at_renull. }
  assert (Hix : forall s t P, indexed_by (renull N d) s t P <-> indexed_by d s t P).
  { intros s t P. unfold indexed_by. by setoid_rewrite index_renull. }
  destruct c; cbn [as_said accepted]; rewrite ?Hfree, ?Hcols, ?Href, ?Hck, ?Hix, ?table_at_renull;
    try setoid_rewrite constraint_at_renull; try setoid_rewrite relation_none_renull;
    try setoid_rewrite function_at_renull; try setoid_rewrite sequence_renull; try setoid_rewrite Href; try done.
Qed.
Lemma obey_accept_null c N d sv d' :
  well_spelled c -> said c -> wf_db d -> described (renull N d) sv -> apply c d = (d', Ok ()) ->
  (is_Some (obey (render_sql c) sv) <-> accepted c d).
Proof.
  intros Hw Hs Hwf Hd Ha. destruct (read_said c Hw Hs) as (st & Hm & Hr). unfold obey. rewrite Hr. cbn [mbind option_bind].
  rewrite <- (accepted_renull N c d Hwf).
  apply (accept_iff (as_said c) (renull N d) sv st (renull (null_said c N) d')); [by apply renull_wf|done|done|].
  by apply apply_renull.
Qed.
Lemma acceptable_null N cs d sv d' :
  Forall well_spelled cs -> wf_db d -> described (renull N d) sv -> apply_all cs d = (d', Ok ()) -> faithful_but_null d cs ->
  ((exists sv', runs obey (render_sql <$> cs) sv sv') <-> acceptable d cs).
Proof.
  intros Hw. revert N d sv. induction Hw as [|c cs Hc Hw IH]; intros N d sv Hwf Hd Ha Hf.
  - split; [done|]. intros _. exists sv. constructor.
  - rewrite apply_all_cons in Ha. destruct (apply c d) as [d1 [[]|e]] eqn:Ea; [|done]. destruct Hf as (H1 & H2 & H3).
    specialize (H3 _ Ea). pose proof (obey_accept_null c N d sv d1 Hc H1 Hwf Hd Ea) as E. cbn [acceptable].
    assert (Hwf1 : wf_db d1) by (by eapply apply_wf). split.
    + intros [sv' Hr]. inversion Hr as [|stmt stmts u0 sv1 u2 Ho Hr']; subst. split; [apply E; by rewrite Ho|].
      intros d2 Ha2. rewrite Ea in Ha2. injection Ha2 as <-.
      apply (IH (null_step c N) d1 sv1); [done| |done|done|by exists sv']. by apply (obey_null c N d sv d1 sv1).
    + intros [G1 G2]. apply E in G1 as [sv1 Ho]. specialize (G2 _ Ea).
      apply (IH (null_step c N) d1 sv1) in G2 as [sv' Hr]; [exists sv'; by econstructor|done| |done|done].
      by apply (obey_null c N d sv d1 sv1).
Qed.
Lemma own_nulls d : wf_db d -> renull (not_null_in d) d = d.
Proof. intros Hwf. apply renull_same; [done|]. intros s t x c Hc. unfold not_null_in. by rewrite Hc. Qed.
Lemma accepted_but_null cs d sv d' :
  Forall well_spelled cs -> wf_db d -> described d sv -> apply_all cs d = (d', Ok ()) -> faithful_but_null d cs ->
  ((exists sv', runs obey (render_sql <$> cs) sv sv') <-> acceptable d cs).
Proof.
  intros Hw Hwf Hd Ha Hf. apply (acceptable_null (not_null_in d) cs d sv d'); [done|done| |done|done]. by rewrite own_nulls.
Qed.
Lemma obedient_nulls {S} (sem : str -> S -> option S) view cs d u d' u' :
  obedient sem view -> Forall well_spelled cs -> wf_db d -> described d (view u) ->
  apply_all cs d = (d', Ok ()) -> runs sem (render_sql <$> cs) u u' ->
  faithful_but_null d cs -> acceptable d cs ->
  (described d' (view u') <->
   forall s t x c, column_at d' s t x = Some c -> col_notnull c = null_after cs (not_null_in d) s t x).
Proof.
  intros Ho Hw Hwf Hd Ha H1 Hf Hac. apply (accepted_but_null cs d (view u) d') in Hac as [sv H2]; [|done..].
  rewrite (obedient_runs _ _ _ _ _ _ Ho Hw H1 H2). exact (nulls_after cs d (view u) d' sv Hw Hwf Hd Hf Ha H2).
Qed.
Lemma diff_migrates os ot s t sv d' :
  wf_db s -> wf_db t -> spelled_db s -> spelled_db t -> described s sv ->
  apply_all (compare_diff os ot s t) s = (d', Ok ()) -> db_equiv d' t ->
  faithful_but_null s (compare_diff os ot s t) -> acceptable s (compare_diff os ot s t) ->
  exists sv', runs obey (render_sql <$> compare_diff os ot s t) sv sv' /\ (described t sv' <-> nulls_kept s t).
Proof.
  intros Hs Ht Ps Pt Hd Ha He Hf Hac.
  assert (Hw : Forall well_spelled (compare_diff os ot s t)) by (by apply SpelledLemmas.diff_spelled).
  apply (accepted_but_null _ s sv d' Hw Hs Hd Ha Hf) in Hac as [sv' Hr]. exists sv'. split; [done|].
  by apply (diff_described os ot s t sv d' sv').
Qed.

Section migrate.
  Context {S : Type} (sem : str -> S -> option S) (view : S -> server) (ident : str -> option str) (schema : str).
  Hypothesis Hident : ident schema = Some schema.
  Hypothesis Hobey : obedient sem view.

  Lemma up_nulls l d version k db db' :
    reachable d -> run (up sem ident l d schema version) k db = (Ret (), db') ->
    exists t cur to names vs,
      finds db schema t /\ newest (t_rows t) cur /\ target d version to /\
      SpecHistory.path d (v_name (r_version cur)) names to /\ Forall2 (stored d) names vs /\
      forall d0, calculate_snapshot d (v_name (r_version cur)) = Ret d0 -> described d0 (view (pg_user db)) ->
        Forall well_spelled (all_changes vs) -> faithful_but_null d0 (all_changes vs) -> acceptable d0 (all_changes vs) ->
        exists d1, calculate_snapshot d to = Ret d1 /\
          (described d1 (view (pg_user db')) <->
           forall s t x c, column_at d1 s t x = Some c -> col_notnull c = null_after (all_changes vs) (not_null_in d0) s t x).
  Proof.
    intros Hre Hrun. destruct (reachable_dir d Hre) as [Hw Hp].
    destruct (up_applies sem ident schema Hident l d version k db db' Hw Hp Hrun)
      as (t & cur & to & names & vs & H1 & H2 & H3 & H4 & _ & H5 & H6 & _). clear Hrun.
    exists t, cur, to, names, vs. split_and!; [done..|].
    intros d0 H0 Hd Hws Hf Hac.
    destruct (path_snapshot d _ names to vs d0 Hre H4 H5 H0) as (d1 & Hd1 & Hwf & Ha & E & _).
    exists d1. split; [done|]. rewrite E in H6.
    exact (obedient_nulls sem view _ d0 _ d1 _ Hobey Hws Hwf Hd Ha H6 Hf Hac).
  Qed.
End migrate.

Section flow.
  Context {S : Type} (o : outside S) (view : S -> server).
  Hypothesis Hbase : reads_base o.
  Hypothesis Hcodec : codec o.
  Hypothesis Hobey : obedient (World.statement o) view.

  Lemma cycle_nulls (o1 o2 o3 : outside S) dir w name cwd1 cwd2 cwd3 k k1 w1 k2 k2' w2 k3 k3' w3 t stg db tb row d0 :
    schema_ident o new_schema = Some new_schema ->
    workspace o dir w -> same_reader o o1 -> same_machine o o2 -> same_machine o o3 ->
    nearest (files w) cwd1 dir -> nearest (files w1) cwd2 dir -> nearest (files w2) cwd3 dir ->
    load_definitions o (below (definitions_of dir) (files w)) = Ret t ->
    cmd_stage o1 cwd1 (L "database") (k, w) = (Ret (), (k1, w1)) ->
    stored (history_at o (history_of dir) (files w1)) (L "stage") stg -> v_changes stg <> [] ->
    files w1 !! (history_of dir ++ [made_name (now o2) name ++ L ".yaml"]) = None -> plain_name (made_name (now o2) name) ->
    cmd_make o2 cwd2 (L "database") name (k2, w1) = (Ret (), (k2', w2)) ->
    cmd_up o3 cwd3 (L "database") None (k3, w2) = (Ret (), (k3', w3)) ->
    servers w !! new_url = Some db -> finds db new_schema tb -> newest (t_rows tb) row ->
    v_previous stg = Some (v_name (r_version row)) ->
    calculate_snapshot (history_at o (history_of dir) (files w1)) (v_name (r_version row)) = Ret d0 ->
    described d0 (view (pg_user db)) ->
    Forall well_spelled (v_changes stg) -> faithful_but_null d0 (v_changes stg) -> acceptable d0 (v_changes stg) ->
    exists db' source, servers w3 !! new_url = Some db' /\
      calculate_snapshot (history_at o (history_of dir) (files w)) (L "stage") = Ret source /\
      (described (expected_db source t) (view (pg_user db')) <->
       forall s k x c, column_at (expected_db source t) s k x = Some c ->
         col_notnull c = null_after (v_changes stg) (not_null_in d0) s k x).
  Proof.
    intros Hid Hw Hr1 Hm2 Hm3 Hn1 Hn2 Hn3 Hl H1 Hstg Hne Hfresh Hplain H2 H3 Hdb Htb Hrow Hprev H0 Hde Hws Hf Hac.
    pose proof (reader_machine o o1 Hr1) as Hm1.
    destruct (flow_stage o Hbase Hcodec o1 dir w cwd1 k (Ret ()) k1 w1 t Hw Hr1 Hn1 Hl H1) as (Hsv1 & Hdef & Hst).
    assert (workspace o dir w1) as Hw1 by (eapply workspace_command; [exact Hw|exact Hm1|exact Hn1|apply project_stage|exact H1|done]).
    pose proof (workspace_reachable o Hbase Hcodec dir w Hw) as Hreach.
    pose proof (workspace_reachable o Hbase Hcodec dir w1 Hw1) as Hreach1.
    destruct (reachable_stage _ Hreach) as (stg0 & Hstg0 & _).
    pose proof (load_definition_files_wf _ _ _ Hl) as Hwt.
    destruct (stage_exact _ _ _ _ _ _ _ _ _ Hreach Hstg0 Hwt Hst) as (source & stg' & Hsrc & Hws' & Hstg' & _ & _ & _ & Hsrc' & _ & Hequiv).
    assert (Hdb1 : servers w1 !! new_url = Some db) by (by rewrite Hsv1).
    destruct (up_made o Hbase Hcodec o2 o3 dir w1 name cwd2 cwd3 k2 k2' w2 k3 k3' w3 stg db row tb) as (db' & Hdb' & R); try done.
    clear H1 H2 H3. exists db', source. split; [done|]. split; [done|].
    assert (Hp : SpecHistory.path (history_at o (history_of dir) (files w1)) (v_name (r_version row)) [L "stage"] (L "stage")).
    { apply (path_step _ _ [] (v_name (r_version row)) _ stg); [|done|done].
      destruct (snapshot_stored _ _ _ Hreach1 H0) as [v Hv]. by eapply path_here. }
    destruct (path_snapshot _ _ _ _ [stg] d0 Hreach1 Hp) as (d1 & Hd1 & Hwf & Ha & _); [constructor; [exact Hstg|constructor]|done|].
    rewrite Hsrc' in Hd1. injection Hd1 as <-.
    assert (all_changes [stg] = v_changes stg) as Eall by (unfold all_changes; cbn; by rewrite app_nil_r).
    rewrite Eall in Ha.
    exact (obedient_nulls (World.statement o) view (v_changes stg) d0 _ _ _ Hobey Hws Hwf Hde Ha R Hf Hac).
  Qed.

  Lemma cycle_fresh (o1 o2 o3 : outside S) dir w name cwd1 cwd2 cwd3 k k1 w1 k2 k2' w2 k3 k3' w3 t stg0 stg db tb row d0 :
    schema_ident o new_schema = Some new_schema ->
    workspace o dir w -> same_reader o o1 -> same_machine o o2 -> same_machine o o3 ->
    nearest (files w) cwd1 dir -> nearest (files w1) cwd2 dir -> nearest (files w2) cwd3 dir ->
    load_definitions o (below (definitions_of dir) (files w)) = Ret t ->
    cmd_stage o1 cwd1 (L "database") (k, w) = (Ret (), (k1, w1)) ->
    stored (history_at o (history_of dir) (files w1)) (L "stage") stg -> v_changes stg <> [] ->
    files w1 !! (history_of dir ++ [made_name (now o2) name ++ L ".yaml"]) = None -> plain_name (made_name (now o2) name) ->
    cmd_make o2 cwd2 (L "database") name (k2, w1) = (Ret (), (k2', w2)) ->
    cmd_up o3 cwd3 (L "database") None (k3, w2) = (Ret (), (k3', w3)) ->
    servers w !! new_url = Some db -> finds db new_schema tb -> newest (t_rows tb) row ->
    stored (history_at o (history_of dir) (files w)) (L "stage") stg0 -> v_changes stg0 = [] ->
    v_previous stg0 = Some (v_name (r_version row)) ->
    calculate_snapshot (history_at o (history_of dir) (files w)) (v_name (r_version row)) = Ret d0 ->
    calculate_snapshot (history_at o (history_of dir) (files w1)) (v_name (r_version row)) = Ret d0 ->
    described d0 (view (pg_user db)) ->
    spelled_db d0 -> spelled_db t -> index_attributes_agree d0 t -> new_sequences_unowned d0 t ->
    faithful_but_null d0 (compare_diff (order_source o1) (order_target o1) d0 t) ->
    acceptable d0 (compare_diff (order_source o1) (order_target o1) d0 t) ->
    exists db', servers w3 !! new_url = Some db' /\ (described t (view (pg_user db')) <-> nulls_kept d0 t).
  Proof.
    intros Hid Hw Hr1 Hm2 Hm3 Hn1 Hn2 Hn3 Hl H1 Hstg Hne Hfresh Hplain H2 H3 Hdb Htb Hrow Hstg0 Hnil Hprev H00 H0 Hde Sd0 St Hix Hsq Hf Hac.
    pose proof (reader_machine o o1 Hr1) as Hm1.
    destruct (flow_stage o Hbase Hcodec o1 dir w cwd1 k (Ret ()) k1 w1 t Hw Hr1 Hn1 Hl H1) as (Hsv1 & Hdef & Hst).
    assert (workspace o dir w1) as Hw1 by (eapply workspace_command; [exact Hw|exact Hm1|exact Hn1|apply project_stage|exact H1|done]).
    pose proof (workspace_reachable o Hbase Hcodec dir w Hw) as Hreach.
    pose proof (workspace_reachable o Hbase Hcodec dir w1 Hw1) as Hreach1.
    pose proof (load_definition_files_wf _ _ _ Hl) as Hwt.
    destruct (stage_exact _ _ _ _ _ _ _ _ _ Hreach Hstg0 Hwt Hst) as (source & stg' & Hsrc & Hws' & Hstg' & Hpv & Hcs & _ & Hsrc' & _ & Hequiv).
    assert (stg' = stg) as -> by (by eapply stored_unique).
    assert (Hp : forall d n v v0, stored d (L "stage") v -> v_previous v = Some n -> stored d n v0 -> SpecHistory.path d n [L "stage"] (L "stage")).
    { intros d n v v0 Hv Hpr Hv0. apply (path_step _ _ [] n _ v); [|done|done]. by eapply path_here. }
    assert (source = d0) as ->.
    { destruct (snapshot_stored _ _ _ Hreach H00) as [v Hv].
      destruct (path_snapshot _ _ _ _ [stg0] d0 Hreach (Hp _ _ _ _ Hstg0 Hprev Hv)) as (d1 & Hd1 & _ & Ha & _); [constructor; [exact Hstg0|constructor]|done|].
      rewrite Hsrc in Hd1. injection Hd1 as <-. unfold all_changes in Ha. cbn in Ha. rewrite Hnil in Ha. by injection Ha as ->. }
    rewrite Hnil in Hcs. cbn [app] in Hcs. rewrite Hprev in Hpv.
    assert (Hdb1 : servers w1 !! new_url = Some db) by (by rewrite Hsv1).
    destruct (up_made o Hbase Hcodec o2 o3 dir w1 name cwd2 cwd3 k2 k2' w2 k3 k3' w3 stg db row tb) as (db' & Hdb' & R); try done.
    clear H1 H2 H3. exists db'. split; [done|].
    destruct (snapshot_stored _ _ _ Hreach1 H0) as [v1 Hv1].
    destruct (path_snapshot _ _ _ _ [stg] d0 Hreach1 (Hp _ _ _ _ Hstg Hpv Hv1)) as (d1 & Hd1 & Hwf & Ha & _); [constructor; [exact Hstg|constructor]|done|].
    rewrite Hsrc' in Hd1. injection Hd1 as <-.
    assert (all_changes [stg] = v_changes stg) as Eall by (unfold all_changes; cbn; by rewrite app_nil_r).
    rewrite Eall, Hcs in Ha. rewrite Hcs in R.
    assert (Hws : Forall well_spelled (compare_diff (order_source o1) (order_target o1) d0 t)) by (by apply SpelledLemmas.diff_spelled).
    apply (accepted_but_null _ d0 (view (pg_user db)) _ Hws Hwf Hde Ha Hf) in Hac as [sv Hr].
    rewrite (obedient_runs _ _ _ _ _ _ Hobey Hws R Hr).
    apply (diff_described (order_source o1) (order_target o1) d0 t (view (pg_user db)) (expected_db d0 t)); try done. by apply Hequiv.
  Qed.
End flow.
