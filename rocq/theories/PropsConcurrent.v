(** C74-C78: several migration commands at the same time.

    [es] is everything that happens, in the order in which it happens: commands are started,
    go on by one operation at a time, fail for whatever reason, are killed.  The theorems
    are for all [es] that can happen.  [vs] are the versions of the project, [sane] says
    that every [up] is started with a directory that has some of them (perhaps a stage, too)
    and is not asked to apply the stage. *)
From Verif Require Import Base Text Types Changes SpecSnapshot DecideSpec SnapshotExamples Sql SpecSql History SpecHistory HistoryLemmas HistoryLoad
  HistoryExamples Dbh SpecDb DbLemmas DbExamples Concurrent ConcurrentRefine SpecConcurrent ConcurrentLemmas ConcurrentPrograms
  ConcurrentClaims ConcurrentUp ConcurrentDown ConcurrentAlone ConcurrentExamples.
From stdpp Require Import sorting.

(** ** The model of concurrent commands is one of the same commands

    A program, run on the database of Dbh.v without interruption, is the command of Dbh.v;
    and every run of the command there is a run of the server here, in which nobody else
    takes part. *)
Theorem concurrent_up_is_up {S : Type} (sem : str -> S -> option S) (ident : str -> option str) (schema : str) l d version s :
  interp sem ident schema (up_program l d version) s = up sem ident l d schema version s.
Proof. exact (interp_up sem ident schema l d version s). Qed.
Print Assumptions concurrent_up_is_up.
Theorem concurrent_down_is_down {S : Type} (sem : str -> S -> option S) (ident : str -> option str) (schema : str) version s :
  interp sem ident schema (down_program version) s = down sem ident schema version s.
Proof. exact (interp_down sem ident schema version s). Qed.
Print Assumptions concurrent_down_is_down.

Theorem concurrent_up_alone {S : Type} (sem : str -> S -> option S) (ident : str -> option str) (schema : str) i l d version k db r db' :
  ident schema = Some schema -> pg_schemas db !! schema <> Some None ->
  (forall t, pg_schemas db !! schema = Some (Some t) -> NoDup (row_name <$> t_rows t)) ->
  run (up sem ident l d schema version) k db = (r, db') ->
  exists es s', Forall (own i) es /\
    unfolds (Start i (Up l d version) :: es) (Server (pg_schemas db !! schema) ∅ [] [] ∅) = Some s' /\
    s_table s' = pg_schemas db' !! schema /\ s_ended s' !! i = Some r /\ runs sem (in_effect s') (pg_user db) (pg_user db').
Proof.
  intros Hid H1 H2. exact (run_alone sem ident schema i (Up l d version) _ k db r db' Hid (up_commits_last l d version)
    (interp_up sem ident schema l d version) H1 H2).
Qed.
Print Assumptions concurrent_up_alone.
Theorem concurrent_down_alone {S : Type} (sem : str -> S -> option S) (ident : str -> option str) (schema : str) i version k db r db' :
  ident schema = Some schema -> pg_schemas db !! schema <> Some None ->
  (forall t, pg_schemas db !! schema = Some (Some t) -> NoDup (row_name <$> t_rows t)) ->
  run (down sem ident schema version) k db = (r, db') ->
  exists es s', Forall (own i) es /\
    unfolds (Start i (Down version) :: es) (Server (pg_schemas db !! schema) ∅ [] [] ∅) = Some s' /\
    s_table s' = pg_schemas db' !! schema /\ s_ended s' !! i = Some r /\ runs sem (in_effect s') (pg_user db) (pg_user db').
Proof.
  intros Hid H1 H2. exact (run_alone sem ident schema i (Down version) _ k db r db' Hid (down_commits_last version)
    (interp_down sem ident schema version) H1 H2).
Qed.
Print Assumptions concurrent_down_alone.

Example concurrent_alone_example :
  stack_up None toy_db1 = (Ret (), toy_db2) /\
  match pg_schemas toy_db1 !! podo with Some (Some t) => NoDup (row_name <$> t_rows t) /\ length (t_rows t) = 2 | _ => False end.
Proof. exact toy_db1_alone. Qed.

(** ** C74: concurrent [up]s apply every version once, in order

    Whatever happens while nobody goes back: the database is at some version not before the
    one at the beginning, and what took effect is exactly the scripts of the versions in
    between, each once, one after the other. *)
Theorem C74_ups_in_order vs m es s s' :
  timeline vs -> idle s -> begins vs m (s_table s) -> Forall (sane vs) es -> Forall upward es -> unfolds es s = Some s' ->
  (s_table s' = None /\ in_effect s' = []) \/
  exists n t, m <= n /\ s_table s' = Some (Some t) /\ records vs n t /\ numbered_up t /\
    in_effect s' = drop m (take n vs) ≫= v_up.
Proof. exact (ups_in_order vs m es s s'). Qed.
Print Assumptions C74_ups_in_order.

(** It is necessary that the directories agree: otherwise two versions follow the same one. *)
Theorem C74_disagreement_refuted :
  exists es s s' t, idle s /\ begins [] 0 (s_table s) /\ Forall upward es /\
    (forall i l d version, Start i (Up l d version) ∈ es -> exists vs, timeline vs /\ on_timeline vs d /\ version <> Some (L "stage")) /\
    unfolds es s = Some s' /\ s_table s' = Some (Some t) /\
    exists a b, a ∈ r_version <$> t_rows t /\ b ∈ r_version <$> t_rows t /\ a <> b /\ v_previous a = v_previous b /\
      s_ended s' !! 1 = Some (Ret ()) /\ s_ended s' !! 2 = Some (Ret ()).
Proof. exact refute_disagreement. Qed.
Print Assumptions C74_disagreement_refuted.

Example C74_example : timeline toy_vs /\ idle (at_rest None) /\ begins toy_vs 0 (s_table (at_rest None)) /\
  (Forall (sane toy_vs) two_ups /\ Forall upward two_ups) /\
  exists s', unfolds two_ups (at_rest None) = Some s' /\
    s_table s' = Some (Some (VTable [Row new_init 1; row_a; row_b] 4)) /\ in_effect s' = toy_vs ≫= v_up /\
    s_ended s' !! 1 = Some (Ret ()) /\ s_ended s' !! 2 = Some (Raise DbError) /\ s_ended s' !! 3 = Some (Ret ()).
Proof. exact (conj toy_timeline (conj (at_rest_idle None) (conj begins_empty (conj two_ups_sane two_ups_run)))). Qed.

(** ** C75: an [up] that says it succeeded did, whatever the others did

    The version it was to migrate to is recorded. (On a database that is not initialised,
    migrating to init succeeds without doing anything.)  The example of C74 is one for
    this, too: commands 1 and 3 succeed. *)
Theorem C75_up_arrives vs m es s s' i l d version :
  timeline vs -> idle s -> begins vs m (s_table s) -> Forall (sane vs) es -> Forall upward es -> unfolds es s = Some s' ->
  Start i (Up l d version) ∈ es -> s_ended s' !! i = Some (Ret ()) ->
  exists to, target d version to /\
    ((s_table s' = None /\ to = INIT) \/ exists t, s_table s' = Some (Some t) /\ to ∈ row_name <$> t_rows t).
Proof. exact (up_arrives vs m es s s' i l d version). Qed.
Print Assumptions C75_up_arrives.

(** ** C76: whatever runs at the same time, the version table stays a chain

    The rows are init and the first versions of the project, each recorded once, after any
    mixture of [up]s and [down]s that succeed, fail, or are killed. *)
Theorem C76_chain_survives vs m es s s' :
  timeline vs -> idle s -> begins vs m (s_table s) -> Forall (sane vs) es -> unfolds es s = Some s' ->
  s_table s' = None \/ exists n t, s_table s' = Some (Some t) /\ records vs n t.
Proof. exact (chain_survives vs m es s s'). Qed.
Print Assumptions C76_chain_survives.

(** ** C77: commands do not block each other for ever

    Wherever they are, the commands that are running can all come to an end, one operation
    after the other, without any of them being killed. *)
Theorem C77_no_deadlock vs m es s s' :
  timeline vs -> idle s -> begins vs m (s_table s) -> Forall (sane vs) es -> unfolds es s = Some s' ->
  exists es' s'', Forall (fun e => exists i, e = Step i) es' /\ unfolds es' s' = Some s'' /\ s_running s'' = ∅.
Proof. exact (no_deadlock vs m es s s'). Qed.
Print Assumptions C77_no_deadlock.

(** ** C78: concurrent [down]s

    "Every version is reverted at most once" is false: two [down]s that overlap both
    execute the script, both succeed, and one version is gone. "What is read as the current
    version is the last one of the chain" is false when [up] and [down] overlap: afterwards
    neither of them works.  With [down]s alone, it is true. *)
Theorem C78_down_once_refuted :
  exists vs m es s s', timeline vs /\ idle s /\ begins vs m (s_table s) /\ Forall (sane vs) es /\ unfolds es s = Some s' /\
    exists i j n t, i <> j /\ s_ended s' !! i = Some (Ret ()) /\ s_ended s' !! j = Some (Ret ()) /\
      s_table s' = Some (Some t) /\ records vs n t /\ n < m /\
      length (in_effect s') = 2 * length (reverse (drop n (take m vs)) ≫= v_down).
Proof. exact refute_down_once. Qed.
Print Assumptions C78_down_once_refuted.

Theorem C78_current_refuted :
  exists vs m es s s' t, timeline vs /\ idle s /\ begins vs m (s_table s) /\ Forall (sane vs) es /\ unfolds es s = Some s' /\
    s_running s' = ∅ /\ s_table s' = Some (Some t) /\ records vs (length vs) t /\
    (exists r, newest (t_rows t) r /\ last vs <> Some (r_version r)) /\
    exists l d, on_timeline vs d /\ (forall v, v ∈ vs -> stored d (v_name v) v) /\
      (run (up log_sem pg_ident l d podo None) 1000 (Pg [] {[podo := Some t]})).1 = Abort /\
      (run (down log_sem pg_ident podo None) 1000 (Pg [] {[podo := Some t]})).1 = Abort.
Proof. exact refute_current. Qed.
Print Assumptions C78_current_refuted.

Theorem C78_downs_only_remove_partial vs m es s s' :
  timeline vs -> idle s -> begins vs m (s_table s) -> Forall downward es -> unfolds es s = Some s' ->
  s_table s' = None \/ exists n t, n <= m /\ s_table s' = Some (Some t) /\ records vs n t /\ numbered_up t.
Proof. exact (downs_only_remove vs m es s s'). Qed.
Print Assumptions C78_downs_only_remove_partial.

Example C78_example : timeline toy_vs /\ begins toy_vs 2 (s_table (at_rest (Some (Some toy_table)))) /\ Forall (sane toy_vs) two_downs /\
  exists s', unfolds two_downs (at_rest (Some (Some toy_table))) = Some s' /\
    s_table s' = Some (Some (VTable [Row new_init 1; row_a] 4)) /\ in_effect s' = [L "-+b"; L "-+b"; L "-b"; L "-b"] /\
    s_ended s' !! 1 = Some (Ret ()) /\ s_ended s' !! 2 = Some (Ret ()).
Proof. exact (conj toy_timeline (conj begins_toy (conj two_downs_sane two_downs_run))). Qed.
