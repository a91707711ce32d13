(** Commands of a project, one after the other. *)
From Verif Require Import Base Text Types Changes SpecSnapshot SpecMerge SpecDiff Diff DiffSame DiffRun Sql History SpecHistory HistoryLemmas
  HistoryProofs HistoryRun HistoryClaims Dbh SpecDb DbLemmas DbRun DbSteps DbClaims DbChain DbProofs Expand Project Definitions
  SpecDefinitions DefinitionsLemmas World SpecProject ProjectLemmas WorldLemmas ProjectProofs ProjectReady ProjectStatus
  SpecSession ProjectSession.

(** ** Loading depends on the texts only *)
Lemma defined_reader dc dc' fs l : dc_read dc' = dc_read dc -> defined dc fs l -> defined dc' fs l.
Proof.
  intros E [H1 H2]. split; [|done]. intros q f Hq. destruct (H1 q f Hq) as (text & Ht & m & o & Hm & Hf).
  exists text. split; [done|]. exists m, o. by rewrite E.
Qed.
Lemma load_reader dc dc' fs d :
  dc_read dc' = dc_read dc -> load_definition_files dc fs = Ret d -> load_definition_files dc' fs = Ret d.
Proof.
  intros E (Hr & l & Hl & H)%load_definition_files_exact. apply load_definition_files_exact.
  split; [done|]. exists l. split; [by eapply defined_reader|done].
Qed.

(** ** After [up] *)
Section database.
  Context {S : Type} (sem : str -> S -> option S) (ident : str -> option str) (schema : str).
  Hypothesis Hident : ident schema = Some schema.

  Lemma up_newest l d version k db db' :
    well_named d -> plain_dir d -> migrated sem ident schema db ->
    run (up sem ident l d schema version) k db = (Ret (), db') ->
    exists t cur to, finds db' schema t /\ newest (t_rows t) cur /\ target d version to /\ v_name (r_version cur) = to.
  Proof.
    intros Hw Hpl Hm Hup.
    pose proof Hup as (t & cur & to & names & vs & _ & Ht & Hn & Hto & Hp & Hnot & Hs & R & _ & Hnd & Hnew & H1 & H2)%up_inv; try done.
    assert (chained t) as Hc by (by eapply migrated_finds).
    destruct (path_linked _ _ _ _ _ Hp Hw Hs) as [Hl Hlast].
    destruct vs as [|v vs _] using rev_ind.
    - rewrite (H1 eq_refl). by exists t, cur, to.
    - specialize (H2 ltac:(by destruct vs)) as [_ H2]. rewrite last_snoc in Hlast.
      assert (chained (after t (vs ++ [v]))) as Hc1 by (by eapply chained_after).
      eexists (after t (vs ++ [v])), (Row v _), to. split; [left; unfold has_table; by rewrite H2, lookup_insert|].
      split; [|split; [done|done]].
      destruct Hc1 as (_ & _ & _ & Hinc & _). revert Hinc. unfold after. cbn [t_rows].
      rewrite numbered_app, (assoc (++)). cbn [numbered]. apply newest_last.
  Qed.
End database.

(** ** Nothing to stage *)
Section nothing.
  Context {S : Type} (o : outside S).

  Lemma store_id (p : path) (d : hdir) (fs : filesystem) : store o p d d fs = fs.
  Proof.
    apply map_eq. intros q.
    destruct (child p q) as [f|] eqn:Hq; [|apply lookup_store_out; intros f Hf; apply child_spec in Hf; congruence].
    apply child_spec in Hq as ->. rewrite lookup_store_in. destruct (d !! f) as [e|]; [|done]. by rewrite decide_True.
  Qed.

  Lemma stage_nothing cwd name p k w r k' w' t source :
    profile_at (setting_of o) (files w) cwd name p -> is_directory (files w) (p_history p) = true ->
    reachable (history_at o (p_history p) (files w)) ->
    load_definitions o (below (p_definitions p) (files w)) = Ret t ->
    calculate_snapshot (history_at o (p_history p) (files w)) (L "stage") = Ret source ->
    db_same source t ->
    cmd_stage o cwd name (k, w) = (r, (k', w')) -> r <> Killed -> r = Ret () /\ w' = w.
  Proof.
    intros Hp Hdir Hreach Hl Hsrc Hsame H Hk.
    rewrite (stage_run o cwd name p) in H by done. apply on_files_run in H as [H Hsv].
    unfold stage_at, in_history in H. cbn [snd] in H. rewrite Hdir, Hl in H.
    set (d := history_at o (p_history p) (files w)) in *.
    destruct (reachable_linear d Hreach) as (made & stg & Hlin).
    pose proof (linear_snapshot_wf _ _ _ _ Hlin Hsrc) as Hws.
    pose proof (load_definition_files_wf _ _ _ Hl) as Hwt.
    assert (compare_diff (order_source o) (order_target o) source t = []) as Hnil by (by apply diff_empty_iff).
    destruct (stage (listing_of o) (order_source o) (order_target o) (Ret t) (k, d)) as [r0 [k0 d0]] eqn:E.
    injection H as <- <- Hfs.
    destruct (linear_loads (listing_of o) d made stg Hlin) as (hist & Hh & _).
    pose proof (linear_stage d made stg Hlin) as Hst.
    unfold stage, ibind, iread in E. cbn [snd] in E.
    change (L "stage") with STAGE in Hsrc. rewrite Hh, Hsrc, Hst, Hnil in E. cbn [stage_changes] in E.
    destruct Hlin as (Hd & _ & Hn & _).
    apply save_version_plain in E as [-> ->]; [|by eapply holds_no_folders|rewrite Hn; apply stage_plain|done].
    split; [done|]. destruct w' as [f' s']. destruct w as [f s]. cbn [files servers] in *. subst s'. f_equal.
    rewrite <-Hfs, insert_id; [apply store_id|]. apply get_version_iff in Hst as [_ Hst]. by rewrite Hn.
  Qed.
End nothing.

(** ** Sequences of commands in a project *)
Section flow.
  Context {S : Type} (o : outside S) (Hbase : reads_base o) (Hcodec : codec o).
  Notation h dir w := (history_at o (history_of dir) (files w)).

  Lemma reader_machine (o' : outside S) : same_reader o o' -> same_machine o o'.
  Proof. by intros [H _]. Qed.
  Lemma reader_load (o' : outside S) fs t : same_reader o o' ->
    load_definitions o fs = Ret t -> load_definitions o' fs = Ret t.
  Proof. intros [_ E]. by apply load_reader. Qed.

  Lemma workspace_profile (o' : outside S) dir w cwd : workspace o dir w -> same_machine o o' -> nearest (files w) cwd dir ->
    profile_at (setting_of o') (files w) cwd (L "database") (base_profile dir).
  Proof.
    intros Hw Hm Hn. pose proof (workspace_alive o Hbase Hcodec dir w Hw) as (Hc & _).
    by eapply machine_profile.
  Qed.
  Lemma workspace_directory dir w : workspace o dir w -> is_directory (files w) (history_of dir) = true.
  Proof. intros Hw. by pose proof (workspace_alive o Hbase Hcodec dir w Hw) as (_ & Hd & _). Qed.
  Lemma workspace_reachable dir w : workspace o dir w -> reachable (h dir w).
  Proof. intros Hw. by destruct (workspace_consistent o dir w Hbase Hcodec Hw). Qed.

  (** The definitions are not written by the commands. *)
  Lemma same_definitions dir fs fs' : same_outside (history_of dir) fs fs' ->
    below (definitions_of dir) fs' = below (definitions_of dir) fs.
  Proof.
    intros H. apply below_same. intros q [x ->]. symmetry. apply H.
    unfold definitions_of, history_of. rewrite <-app_assoc. intros Hp%prefix_app_inv.
    cbn in Hp. apply prefix_cons_inv_2 in Hp. by apply prefix_cons_inv_1 in Hp.
  Qed.

  (** What each command does, in terms of the history. *)
  Lemma flow_stage (o' : outside S) dir w cwd k r k' w' t :
    workspace o dir w -> same_reader o o' -> nearest (files w) cwd dir ->
    load_definitions o (below (definitions_of dir) (files w)) = Ret t ->
    cmd_stage o' cwd (L "database") (k, w) = (r, (k', w')) ->
    servers w' = servers w /\
    below (definitions_of dir) (files w') = below (definitions_of dir) (files w) /\
    stage (listing_of o') (order_source o') (order_target o') (Ret t) (k, h dir w) = (r, (k', h dir w')).
  Proof.
    intros Hw Hr Hn Hl H. pose proof (reader_machine o' Hr) as Hm.
    pose proof (workspace_profile o' dir w cwd Hw Hm Hn) as Hp.
    destruct (stage_local o' cwd (L "database") (base_profile dir) k w r k' w' Hp H) as (H1 & H2 & _).
    split; [done|]. split; [by apply same_definitions|].
    pose proof (stage_refines o' cwd (L "database") (base_profile dir) k w r k' w' (machine_codec o Hcodec o' Hm) Hp
      (workspace_directory dir w Hw) H) as H3.
    change (p_definitions (base_profile dir)) with (definitions_of dir) in H3.
    change (p_history (base_profile dir)) with (history_of dir) in H3.
    by rewrite (reader_load o' _ t Hr Hl), !(machine_history o o' _ _ Hm) in H3.
  Qed.
  Lemma flow_make (o' : outside S) dir w cwd name k r k' w' :
    workspace o dir w -> same_machine o o' -> nearest (files w) cwd dir ->
    cmd_make o' cwd (L "database") name (k, w) = (r, (k', w')) ->
    servers w' = servers w /\
    below (definitions_of dir) (files w') = below (definitions_of dir) (files w) /\
    make (listing_of o') (now o') name (k, h dir w) = (r, (k', h dir w')).
  Proof.
    intros Hw Hm Hn H.
    pose proof (workspace_profile o' dir w cwd Hw Hm Hn) as Hp.
    destruct (make_local o' cwd (L "database") name (base_profile dir) k w r k' w' Hp H) as (H1 & H2 & _).
    split; [done|]. split; [by apply same_definitions|].
    pose proof (make_refines o' cwd (L "database") name (base_profile dir) k w r k' w' (machine_codec o Hcodec o' Hm) Hp
      (workspace_directory dir w Hw) H) as H3.
    change (p_history (base_profile dir)) with (history_of dir) in H3.
    by rewrite !(machine_history o o' _ _ Hm) in H3.
  Qed.
  Lemma flow_up (o' : outside S) dir w cwd version k r k' w' :
    workspace o dir w -> same_machine o o' -> nearest (files w) cwd dir ->
    cmd_up o' cwd (L "database") version (k, w) = (r, (k', w')) ->
    files w' = files w /\
    exists db db', servers w !! new_url = Some db /\ servers w' !! new_url = Some db' /\
      run (up (statement o) (schema_ident o) (listing_of o') (h dir w) new_schema version) k db = (r, db').
  Proof.
    intros Hw Hm Hn H.
    pose proof (workspace_profile o' dir w cwd Hw Hm Hn) as Hp.
    rewrite (up_run o' _ _ _ _ _ _ _ Hp Hp) in H. unfold up_at in H.
    change (p_history (base_profile dir)) with (history_of dir) in H.
    rewrite (workspace_directory dir w Hw), (machine_history o o' _ _ Hm) in H.
    pose proof Hm as (_ & _ & _ & _ & Es & Ei). rewrite Es, Ei in H.
    destruct (workspace_together o Hbase Hcodec dir w Hw) as (db & Hs & _).
    unfold on_server in H. change (p_database_url (base_profile dir)) with new_url in H. rewrite Hs in H.
    match type of H with context [up ?a ?b ?c ?d ?e ?f] =>
      destruct (up a b c d e f (k, Session db db)) as [r0 [k0 s0]] eqn:E end.
    injection H as <- <- <-. split; [done|]. exists db, (rolled_back s0). split; [done|].
    cbn [servers]. rewrite lookup_insert. split; [done|]. unfold run.
    change (p_metadata_schema (base_profile dir)) with new_schema in E. by rewrite E.
  Qed.
  Lemma flow_status (o' : outside S) dir w cwd k r k' w' t :
    workspace o dir w -> same_reader o o' -> nearest (files w) cwd dir ->
    load_definitions o (below (definitions_of dir) (files w)) = Ret t ->
    cmd_status o' cwd (L "database") (k, w) = (r, (k', w')) -> r <> Killed ->
    exists rep stg source, r = Ret rep /\ stored (h dir w) (L "stage") stg /\
      calculate_snapshot (h dir w) (L "stage") = Ret source /\ staged rep = v_changes stg /\
      not_staged rep = compare_diff (order_source o') (order_target o') source t /\
      (forall db tbl row, schema_ident o new_schema = Some new_schema ->
         servers w !! new_url = Some db -> has_table db new_schema tbl -> newest (t_rows tbl) row ->
         on_version rep = Ret (v_name (r_version row))).
  Proof.
    intros Hw Hr Hn Hl H Hk. pose proof (reader_machine o' Hr) as Hm.
    pose proof (workspace_profile o' dir w cwd Hw Hm Hn) as Hp.
    pose proof (workspace_reachable dir w Hw) as Hreach.
    rewrite <-(machine_history o o' _ _ Hm) in Hreach.
    destruct (status_exact o' cwd (L "database") (base_profile dir) (base_profile dir) k w r k' w' t Hp Hp
      (workspace_directory dir w Hw) Hreach (reader_load o' _ t Hr Hl) H) as [_ H1].
    destruct (H1 Hk) as (rep & stg & source & E & H2 & H3 & H4 & H5 & _ & H6).
    change (p_history (base_profile dir)) with (history_of dir) in *.
    rewrite (machine_history o o' _ _ Hm) in H2, H3.
    exists rep, stg, source. split; [done|]. split; [done|]. split; [done|]. split; [done|]. split; [done|].
    intros db tbl row Hid Hs Ht Hnew. eapply H6; [|exact Hs|exact Ht| |exact Hnew].
    - destruct Hm as (_ & _ & _ & _ & _ & ->). exact Hid.
    - destruct (workspace_together o Hbase Hcodec dir w Hw) as (db1 & Hs1 & Htog).
      assert (db1 = db) as -> by congruence. apply together_migrated in Htog.
      pose proof (migrated_chained _ _ _ Hid _ _ Htog Ht) as Hc%chained_distinct. apply Hc.
  Qed.

  (** Stage, then status. *)
  Lemma stage_status (o1 o2 : outside S) dir w cwd1 k k1 w1 cwd2 k2 r k2' w2 t :
    workspace o dir w -> same_reader o o1 -> same_reader o o2 ->
    nearest (files w) cwd1 dir -> nearest (files w1) cwd2 dir ->
    load_definitions o (below (definitions_of dir) (files w)) = Ret t ->
    cmd_stage o1 cwd1 (L "database") (k, w) = (Ret (), (k1, w1)) ->
    cmd_status o2 cwd2 (L "database") (k2, w1) = (r, (k2', w2)) -> r <> Killed ->
    exists rep source stg, r = Ret rep /\
      calculate_snapshot (h dir w) (L "stage") = Ret source /\ stored (h dir w) (L "stage") stg /\
      staged rep = v_changes stg ++ compare_diff (order_source o1) (order_target o1) source t /\
      (not_staged rep = [] <-> new_sequences_unowned source t).
  Proof.
    intros Hw Hr1 Hr2 Hn1 Hn2 Hl H1 H2 Hk.
    destruct (flow_stage o1 dir w cwd1 k (Ret ()) k1 w1 t Hw Hr1 Hn1 Hl H1) as (_ & Hdef & Hst).
    assert (workspace o dir w1) as Hw1.
    { eapply workspace_command; [exact Hw|exact (reader_machine o1 Hr1)|exact Hn1|apply project_stage|exact H1|done]. }
    pose proof (workspace_reachable dir w Hw) as Hreach.
    destruct (reachable_stage _ Hreach) as (stg & Hstg & _).
    pose proof (load_definition_files_wf _ _ _ Hl) as Hwt.
    destruct (stage_exact _ _ _ _ _ _ _ _ _ Hreach Hstg Hwt Hst) as (source & stg' & Hsrc & Hws & Hstg' & _ & Hch & _ & Hsrc' & Hre & _).
    rewrite <-Hdef in Hl.
    destruct (flow_status o2 dir w1 cwd2 k2 r k2' w2 t Hw1 Hr2 Hn2 Hl H2 Hk) as (rep & stg2 & source2 & -> & H3 & H4 & H5 & H6 & _).
    assert (stg2 = stg') as -> by (by eapply stored_unique). rewrite H4 in Hsrc'. injection Hsrc' as ->.
    exists rep, source, stg. rewrite H5, H6. done.
  Qed.

  (** Staging again. *)
  Lemma stage_again (o1 o2 : outside S) dir w cwd1 k k1 w1 cwd2 k2 r k2' w2 t source :
    workspace o dir w -> same_reader o o1 -> same_reader o o2 ->
    nearest (files w) cwd1 dir -> nearest (files w1) cwd2 dir ->
    load_definitions o (below (definitions_of dir) (files w)) = Ret t ->
    calculate_snapshot (h dir w) (L "stage") = Ret source -> new_sequences_unowned source t ->
    cmd_stage o1 cwd1 (L "database") (k, w) = (Ret (), (k1, w1)) ->
    cmd_stage o2 cwd2 (L "database") (k2, w1) = (r, (k2', w2)) -> r <> Killed -> r = Ret () /\ w2 = w1.
  Proof.
    intros Hw Hr1 Hr2 Hn1 Hn2 Hl Hsrc Huno H1 H2 Hk.
    destruct (flow_stage o1 dir w cwd1 k (Ret ()) k1 w1 t Hw Hr1 Hn1 Hl H1) as (_ & Hdef & Hst).
    assert (workspace o dir w1) as Hw1.
    { eapply workspace_command; [exact Hw|exact (reader_machine o1 Hr1)|exact Hn1|apply project_stage|exact H1|done]. }
    pose proof (workspace_reachable dir w Hw) as Hreach.
    destruct (reachable_stage _ Hreach) as (stg & Hstg & _).
    pose proof (load_definition_files_wf _ _ _ Hl) as Hwt.
    destruct (stage_exact _ _ _ _ _ _ _ _ _ Hreach Hstg Hwt Hst) as (source0 & stg' & Hsrc0 & Hws & Hstg' & _ & Hch & _ & Hsrc' & Hre & _).
    rewrite Hsrc in Hsrc0. injection Hsrc0 as <-.
    rewrite <-Hdef in Hl.
    pose proof (reader_machine o2 Hr2) as Hm2.
    pose proof (workspace_reachable dir w1 Hw1) as Hreach1.
    rewrite <-(machine_history o o2 _ _ Hm2) in Hreach1, Hsrc'.
    eapply (stage_nothing o2 cwd2 (L "database") (base_profile dir)); [|exact (workspace_directory dir w1 Hw1)|exact Hreach1| |exact Hsrc'| |exact H2|done].
    - by eapply workspace_profile.
    - by apply reader_load.
    - apply (diff_empty_iff (order_source o1) (order_target o1)); [by apply expected_db_wf|done|]. by apply Hre.
  Qed.

  (** Stage, make, up, status. *)
  Lemma whole_cycle (o1 o2 o3 o4 : outside S) dir w name cwd1 cwd2 cwd3 cwd4 k k1 w1 k2 k2' w2 k3 k3' w3 k4 r k4' w4 t stg :
    schema_ident o new_schema = Some new_schema ->
    workspace o dir w -> same_reader o o1 -> same_machine o o2 -> same_machine o o3 -> same_reader o o4 ->
    nearest (files w) cwd1 dir -> nearest (files w1) cwd2 dir -> nearest (files w2) cwd3 dir -> nearest (files w3) cwd4 dir ->
    load_definitions o (below (definitions_of dir) (files w)) = Ret t ->
    cmd_stage o1 cwd1 (L "database") (k, w) = (Ret (), (k1, w1)) ->
    stored (h dir w1) (L "stage") stg -> v_changes stg <> [] ->
    files w1 !! (history_of dir ++ [made_name (now o2) name ++ L ".yaml"]) = None -> plain_name (made_name (now o2) name) ->
    cmd_make o2 cwd2 (L "database") name (k2, w1) = (Ret (), (k2', w2)) ->
    cmd_up o3 cwd3 (L "database") None (k3, w2) = (Ret (), (k3', w3)) ->
    cmd_status o4 cwd4 (L "database") (k4, w3) = (r, (k4', w4)) -> r <> Killed ->
    exists rep source, r = Ret rep /\ calculate_snapshot (h dir w) (L "stage") = Ret source /\
      on_version rep = Ret (made_name (now o2) name) /\ staged rep = [] /\
      (not_staged rep = [] <-> new_sequences_unowned source t).
  Proof.
    intros Hid Hw Hr1 Hm2 Hm3 Hr4 Hn1 Hn2 Hn3 Hn4 Hl H1 Hstg Hne Hfresh Hplain H2 H3 H4 Hk.
    pose proof (reader_machine o1 Hr1) as Hm1. pose proof (reader_machine o4 Hr4) as Hm4.
    destruct (flow_stage o1 dir w cwd1 k (Ret ()) k1 w1 t Hw Hr1 Hn1 Hl H1) as (_ & Hdef & Hst).
    assert (workspace o dir w1) as Hw1 by (eapply workspace_command; [exact Hw|exact Hm1|exact Hn1|apply project_stage|exact H1|done]).
    assert (workspace o dir w2) as Hw2 by (eapply workspace_command; [exact Hw1|exact Hm2|exact Hn2|by apply project_make|exact H2|done]).
    assert (workspace o dir w3) as Hw3 by (eapply workspace_command; [exact Hw2|exact Hm3|exact Hn3|by apply (project_up _ _ _ _ None)|exact H3|done]).
    destruct (flow_make o2 dir w1 cwd2 name k2 (Ret ()) k2' w2 Hw1 Hm2 Hn2 H2) as (Hsv2 & Hdef2 & Hmake).
    destruct (flow_up o3 dir w2 cwd3 None k3 (Ret ()) k3' w3 Hw2 Hm3 Hn3 H3) as (Hf3 & db & db' & Hdb & Hdb' & Hup).
    pose proof (workspace_reachable dir w Hw) as Hreach.
    pose proof (workspace_reachable dir w1 Hw1) as Hreach1.
    pose proof (workspace_reachable dir w2 Hw2) as Hreach2.
    destruct (reachable_stage _ Hreach) as (stg0 & Hstg0 & _).
    pose proof (load_definition_files_wf _ _ _ Hl) as Hwt.
    destruct (stage_exact _ _ _ _ _ _ _ _ _ Hreach Hstg0 Hwt Hst) as (source & stg' & Hsrc & Hws & Hstg' & _ & Hch & _ & Hsrc' & Hre & _).
    assert (h dir w1 !! (made_name (now o2) name ++ L ".yaml") = None) as Hnew by (by rewrite lookup_history_at, Hfresh).
    destruct (make_moves _ _ _ _ _ _ _ _ Hreach1 Hnew Hplain Hmake Hstg (or_introl Hne)) as (Hmade & Hstage & _ & Hkeep).
    assert (load_definitions o (below (definitions_of dir) (files w3)) = Ret t) as Hl3 by (by rewrite Hf3, Hdef2, Hdef).
    destruct (flow_status o4 dir w3 cwd4 k4 r k4' w4 t Hw3 Hr4 Hn4 Hl3 H4 Hk) as (rep & stg2 & source2 & -> & H5 & H6 & H7 & H8 & H9).
    rewrite Hf3 in H5, H6.
    assert (stg2 = Version (L "stage") (Some (made_name (now o2) name)) [] [] []) as -> by (by eapply stored_unique).
    rewrite Hkeep, Hsrc' in H6. injection H6 as <-.
    exists rep, source. split; [done|]. split; [done|]. rewrite H7, H8. split; [|done].
    destruct (workspace_together o Hbase Hcodec dir w2 Hw2) as (db0 & Hdb0 & Htog).
    assert (db0 = db) as -> by congruence.
    destruct (reachable_dir _ Hreach2) as [Hwn Hpd].
    destruct (up_newest _ _ _ Hid _ _ _ _ _ _ Hwn Hpd (together_migrated _ _ _ _ _ _ Htog) Hup) as (tb & cur & to & Hf & Hnewest & Hto & Hname).
    assert (to = made_name (now o2) name) as ->.
    { destruct (reachable_linear _ Hreach2) as (made & st & Hlin). cbn in Hto.
      rewrite (linear_is_current _ _ _ _ Hlin Hto).
      pose proof (linear_stage _ _ _ Hlin) as Hs%get_version_iff.
      assert (st = Version (L "stage") (Some (made_name (now o2) name)) [] [] []) as -> by (by eapply stored_unique).
      destruct Hlin as (_ & Hlink & _). apply linked_app in Hlink as [_ [Hprev _]]. cbn [v_previous] in Hprev.
      rewrite last_cons in Hprev. destruct (last made); cbn in Hprev |- *; congruence. }
    destruct Hf as [Hf|[_ ->]].
    - rewrite <-Hname. eapply H9; [done|done|done|done].
    - exfalso. destruct Hnewest as [Hin _]. apply elem_of_list_singleton in Hin as ->.
      change (L "init" = made_name (now o2) name) in Hname.
      destruct (reachable_linear _ Hreach1) as (made & st & Hlin).
      rewrite <-Hname in Hnew. destruct Hlin as ((_ & _ & Hd) & _).
      assert (h dir w1 !! (L "init" ++ L ".yaml") = Some (Document new_init)) as Hx.
      { apply Hd. exists new_init. split; [by left|done]. }
      congruence.
  Qed.

  (** The statements that [up] runs after a version was made. *)
  Lemma up_made (o2 o3 : outside S) dir w1 name cwd2 cwd3 k2 k2' w2 k3 k3' w3 stg db row tb :
    schema_ident o new_schema = Some new_schema ->
    workspace o dir w1 -> same_machine o o2 -> same_machine o o3 ->
    nearest (files w1) cwd2 dir -> nearest (files w2) cwd3 dir ->
    stored (h dir w1) (L "stage") stg -> v_changes stg <> [] ->
    files w1 !! (history_of dir ++ [made_name (now o2) name ++ L ".yaml"]) = None -> plain_name (made_name (now o2) name) ->
    cmd_make o2 cwd2 (L "database") name (k2, w1) = (Ret (), (k2', w2)) ->
    cmd_up o3 cwd3 (L "database") None (k3, w2) = (Ret (), (k3', w3)) ->
    servers w1 !! new_url = Some db -> finds db new_schema tb -> newest (t_rows tb) row ->
    v_previous stg = Some (v_name (r_version row)) ->
    exists db', servers w3 !! new_url = Some db' /\
      runs (statement o) (render_sql <$> v_changes stg) (pg_user db) (pg_user db').
  Proof.
    intros Hid Hw1 Hm2 Hm3 Hn2 Hn3 Hstg Hne Hfresh Hplain H2 H3 Hdb Htb Hrow Hprev.
    assert (workspace o dir w2) as Hw2 by (eapply workspace_command; [exact Hw1|exact Hm2|exact Hn2|by apply project_make|exact H2|done]).
    destruct (flow_make o2 dir w1 cwd2 name k2 (Ret ()) k2' w2 Hw1 Hm2 Hn2 H2) as (Hsv2 & Hdef2 & Hmake).
    destruct (flow_up o3 dir w2 cwd3 None k3 (Ret ()) k3' w3 Hw2 Hm3 Hn3 H3) as (Hf3 & db0 & db' & Hdb0 & Hdb' & Hup).
    rewrite Hsv2, Hdb in Hdb0. injection Hdb0 as <-.
    pose proof (workspace_reachable dir w1 Hw1) as Hreach1.
    pose proof (workspace_reachable dir w2 Hw2) as Hreach2.
    assert (h dir w1 !! (made_name (now o2) name ++ L ".yaml") = None) as Hnew by (by rewrite lookup_history_at, Hfresh).
    destruct (make_moves _ _ _ _ _ _ _ _ Hreach1 Hnew Hplain Hmake Hstg (or_introl Hne)) as (Hmade & Hstage & _ & _).
    destruct (reachable_dir _ Hreach2) as [Hwn Hpd].
    exists db'. split; [done|].
    pose proof Hup as (t & cur & to & names & vs & Ht & Hn & Hto & Hp & Hnot & Hs & R & _)%up_applies; try done.
    assert (t = tb) as ->.
    { destruct Ht as [Ht|[Ht ->]], Htb as [Htb|[Htb ->]]; unfold has_table in *; congruence. }
    destruct (workspace_together o Hbase Hcodec dir w1 Hw1) as (db0 & Hdb0 & Htog).
    assert (db0 = db) as -> by congruence. apply together_migrated in Htog.
    assert (cur = row) as ->.
    { pose proof (migrated_finds _ _ _ Hid _ _ Htog Htb) as (_ & _ & _ & Hinc & _).
      eapply newest_unique; [|exact Hn|exact Hrow]. by apply increasing_nodup. }
    assert (to = made_name (now o2) name) as ->.
    { destruct (reachable_linear _ Hreach2) as (made & st & Hlin). cbn in Hto.
      rewrite (linear_is_current _ _ _ _ Hlin Hto).
      pose proof (linear_stage _ _ _ Hlin) as Hst%get_version_iff.
      assert (st = Version (L "stage") (Some (made_name (now o2) name)) [] [] []) as -> by (by eapply stored_unique).
      destruct Hlin as (_ & Hlink & _). apply linked_app in Hlink as [_ [Hl _]]. cbn [v_previous] in Hl.
      rewrite last_cons in Hl. destruct (last made); cbn in Hl |- *; congruence. }
    destruct (reachable_linear _ Hreach1) as (made1 & st1 & Hlin1).
    destruct (plain_not_init _ _ _ _ Hlin1 Hnew) as [Hns Hni].
    assert (vs = [Version (made_name (now o2) name) (v_previous stg) (v_changes stg) (v_up stg) (v_down stg)]) as ->.
    { remember (made_name (now o2) name) as mn eqn:Emn. remember (v_name (r_version row)) as a eqn:Ea.
      destruct Hp as [v Hv|ns b c v Hp Hv Hpv].
      - exfalso. assert (stored (h dir w1) a (r_version row)) as Hrs.
        { rewrite Ea. destruct Hrow as [Hin _]. destruct Htb as [Htb|[_ ->]].
          - destruct (workspace_consistent o dir w1 Hbase Hcodec Hw1) as (_ & db1 & Hdb1 & _ & Hc).
            assert (db1 = db) as -> by congruence.
            destruct (Hc tb Hid Htb) as (cur & nms & _ & _ & _ & Hst). by apply Hst.
          - apply elem_of_list_singleton in Hin as ->. by destruct Hni. }
        destruct Hrs as [_ Hrs]. congruence.
      - assert (v = Version c (v_previous stg) (v_changes stg) (v_up stg) (v_down stg)) as -> by (by eapply stored_unique).
        cbn [v_previous] in Hpv. rewrite Hprev in Hpv. injection Hpv as <-.
        assert (ns = []) as ->.
        { destruct ns as [|x ns _] using rev_ind; [done|]. exfalso.
          pose proof (reachable_path_fresh _ _ _ _ Hreach2 Hp) as Hfr. apply Hfr.
          inversion Hp as [v0 Hv0 E1 E2|ns0 b0 c0 v0 Hp0 Hv0 Hpv0 E1 E2]; [by destruct ns|].
          apply app_inj_tail in E1 as [_ <-]. apply elem_of_app. right. by left. }
        cbn in Hs. inversion Hs as [|n v ns vs' Hsv Hs' E1 E2]; subst. inversion Hs'; subst.
        f_equal. by eapply stored_unique. }
    cbn in R. rewrite app_nil_r in R.
    assert (v_up stg = render_sql <$> v_changes stg) as <-; [|done].
    destruct (reachable_statements _ _ _ Hreach1 Hstg) as (Hlen & _ & Hall); [done|].
    apply list_eq. intros i. rewrite list_lookup_fmap. destruct (v_changes stg !! i) as [c|] eqn:Ei; cbn.
    - by apply Hall.
    - apply lookup_ge_None in Ei. apply lookup_ge_None. lia.
  Qed.
End flow.

(** ** After init *)
Lemma init_clean {S : Type} (o : outside S) cwd k fs :
  reads_base o -> codec o -> reads_back (documents_of o) -> exists_dir fs cwd ->
  (forall dir, ~ enclosing fs cwd dir) ->
  (forall q, config cwd `prefix_of` q -> fs !! q = None) ->
  (forall q, (cwd ++ [L "database"]) `prefix_of` q -> fs !! q = None) ->
  exists fs', cmd_init o cwd (12 + 2 * length cwd + k, fs) = (Ret (), (k, fs')) /\
    forall o' sv, same_reader o o' ->
      (forall k1 r k2 w, cmd_status o' cwd (L "database") (k1, World fs' sv) = (r, (k2, w)) -> r <> Killed ->
         w = World fs' sv /\ exists rep, r = Ret rep /\ staged rep = [] /\ not_staged rep = []) /\
      (forall k1 r k2 w, cmd_stage o' cwd (L "database") (k1, World fs' sv) = (r, (k2, w)) -> r <> Killed ->
         w = World fs' sv /\ r = Ret ()).
Proof.
  intros Hb Hc Hbk He Hn Hq Hd.
  destruct (init_run o cwd k fs) as (fs' & H & H1 & H2 & H3 & H4); try done.
  { intros proj Hp. apply discover_ret in Hp as (dir & y & [[Hx _] _] & _). by apply (Hn dir). }
  exists fs'. split; [exact H|]. intros o' sv Hr. pose proof (reader_machine o o' Hr) as Hm.
  assert (nearest fs' cwd cwd) as Hnear.
  { split; [split; [done|by rewrite H1]|]. intros dir' [Hp _]. done. }
  assert (profile_at (setting_of o') fs' cwd (L "database") (base_profile cwd)) as Hprof.
  { by eapply (machine_profile o Hb). }
  assert (history_at o' (history_of cwd) fs' =
    <[L "stage.yaml" := Document (new_stage (L "init"))]> (<[L "init.yaml" := Document new_init]> ∅)) as Hh.
  { by rewrite (machine_history o o' _ _ Hm). }
  assert (load_definitions o' (below (definitions_of cwd) fs') = Ret public_db) as Hload.
  { apply (reader_load o o' _ _ Hr). unfold load_definitions, definitions_of. rewrite H4. by apply public_loads. }
  split; intros k1 r k2 w Hrun Hk.
  - destruct (status_exact o' cwd (L "database") (base_profile cwd) (base_profile cwd) k1 (World fs' sv) r k2 w public_db
      Hprof Hprof H2) as [-> Hs]; [| |exact Hrun|].
    + change (p_history (base_profile cwd)) with (history_of cwd). cbn [files]. rewrite Hh. apply fresh_reachable.
    + exact Hload.
    + split; [done|]. destruct (Hs Hk) as (rep & stg & source & -> & Hst & Hsrc & Hstd & E & Hsame & _).
      exists rep. split; [done|].
      change (p_history (base_profile cwd)) with (history_of cwd) in Hst, Hsrc. cbn [files] in Hst, Hsrc.
      rewrite Hh in Hst, Hsrc. rewrite fresh_snapshot in Hsrc. injection Hsrc as <-. split.
      * destruct Hst as [_ Hst]. change (L "stage" ++ L ".yaml") with (L "stage.yaml") in Hst.
        rewrite lookup_insert in Hst. injection Hst as <-. exact Hstd.
      * apply Hsame, db_same_refl.
  - destruct (stage_nothing o' cwd (L "database") (base_profile cwd) k1 (World fs' sv) r k2 w public_db public_db) as [-> ->]; try done.
    + change (p_history (base_profile cwd)) with (history_of cwd). cbn [files]. rewrite Hh. apply fresh_reachable.
    + change (p_history (base_profile cwd)) with (history_of cwd). cbn [files]. rewrite Hh. apply fresh_snapshot.
    + apply db_same_refl.
Qed.
