(** C36-C43, C56, C57: the migration commands and the version table.

    [sem] is what a statement does to the user's part of the database (None: it fails);
    [ident] is how the server reads an identifier.  Every theorem is for all of them; where
    [ident schema = Some schema] is assumed, it says that the server reads the configured
    metadata schema as it is written (C56 is about schemas for which it does not). *)
From Verif Require Import Base Text Types Changes Sql History SpecHistory HistoryLemmas HistoryLoad HistoryProofs
  HistoryRun HistoryClaims HistoryExamples Dbh SpecDb DbLemmas DbRun DbSteps DbClaims DbChain DbProofs DbNames DbCounter DbExamples.
From stdpp Require Import sorting.

(** ** C36: migrations are all or nothing

    Whatever goes wrong, and wherever the process is killed (the budget [k] counts the
    operations it still performs), the statements' effects and the rows of the version table
    are those before.  "Exactly as before" is false in one respect: the sequence of the
    version table is not transactional, so a failed [up] leaves a gap in the numbers. *)
Theorem C36_exactly_as_before_refuted :
  exists (sem : str -> list str -> option (list str)) ident l d schema version k (db : pg (list str)) db',
    run (up sem ident l d schema version) k db = (Abort, db') /\ db' <> db.
Proof. exact refute_exactly_as_before. Qed.
Print Assumptions C36_exactly_as_before_refuted.

Theorem C36_up_atomic_partial {S : Type} (sem : str -> S -> option S) (ident : str -> option str) (schema : str) l d version k db r db' :
  run (up sem ident l d schema version) k db = (r, db') -> r <> Ret () -> same_contents db db'.
Proof. exact (up_atomic sem ident schema l d version k db r db'). Qed.
Print Assumptions C36_up_atomic_partial.

Theorem C36_down_atomic_partial {S : Type} (sem : str -> S -> option S) (ident : str -> option str) (schema : str) version k db r db' :
  run (down sem ident schema version) k db = (r, db') -> r <> Ret () -> same_contents db db'.
Proof. exact (down_atomic sem ident schema version k db r db'). Qed.
Print Assumptions C36_down_atomic_partial.

(** For [down] it is exactly as before, and for [up] exactly but for this gap, which is at most
    the number of versions that were to be applied. *)
Theorem C36_down_exactly {S : Type} (sem : str -> S -> option S) (ident : str -> option str) (schema : str) version k db r db' :
  run (down sem ident schema version) k db = (r, db') -> r <> Ret () -> db' = db.
Proof. exact (down_exactly sem ident schema version k db r db'). Qed.
Print Assumptions C36_down_exactly.

Theorem C36_up_gap {S : Type} (sem : str -> S -> option S) (ident : str -> option str) (schema : str) l d version k db r db' :
  ident schema = Some schema -> well_named d -> plain_dir d ->
  run (up sem ident l d schema version) k db = (r, db') -> r <> Ret () ->
  pg_user db' = pg_user db /\
  (forall n, (forall t, n = schema -> pg_schemas db !! n <> Some (Some t)) -> pg_schemas db' !! n = pg_schemas db !! n) /\
  forall t, has_table db schema t -> exists t', has_table db' schema t' /\ t_rows t' = t_rows t /\
    (t_next t' = t_next t \/
     exists cur to names, newest (t_rows t) cur /\ target d version to /\
       path d (v_name (r_version cur)) names to /\ v_name (r_version cur) ∉ names /\
       (t_next t <= t_next t' <= t_next t + Z.of_nat (length names))%Z).
Proof. exact (fun H => up_counter sem ident schema H l d version k db r db'). Qed.
Print Assumptions C36_up_gap.

Example C36_example :
  (run (up log_sem pg_ident sorted_listing ex_d5 podo None) 9 empty_db).1 = Killed /\
  (run (up log_sem pg_ident sorted_listing ex_d5 podo None) 9 empty_db).2 = empty_db.
Proof. exact ex_up_killed. Qed.

Example C36_example_down :
  (run (down stack_sem pg_ident podo None) 8 toy_db2).1 = Killed /\ pg_user toy_db2 <> [] /\
  well_named toy_dir /\ plain_dir toy_dir.
Proof.
  split; [vm_compute; reflexivity|]. split; [vm_compute; discriminate|]. split; [exact toy_named|exact toy_plain].
Qed.

(** ** C37: [up] applies exactly the pending versions, in order

    Soundness for every history directory in which versions are stored under their own
    names; completeness for the histories and databases the commands produce: the only things
    that can go wrong are a failing statement and, at the end, a constraint that was put off. *)

Theorem C37_up_applies {S : Type} (sem : str -> S -> option S) (ident : str -> option str) (schema : str) l d version k db db' :
  ident schema = Some schema ->
  well_named d -> plain_dir d ->
  run (up sem ident l d schema version) k db = (Ret (), db') ->
  exists t cur to names vs,
    finds db schema t /\ newest (t_rows t) cur /\ target d version to /\
    path d (v_name (r_version cur)) names to /\ v_name (r_version cur) ∉ names /\
    Forall2 (stored d) names vs /\ runs sem (vs ≫= v_up) (pg_user db) (pg_user db') /\
    (vs = [] -> db' = db) /\
    (vs <> [] -> settled sem (pg_user db') /\ pg_schemas db' =
       <[schema := Some (VTable (t_rows t ++ numbered (t_next t) vs) (t_next t + Z.of_nat (length vs)))]> (pg_schemas db)).
Proof. intros H. exact (up_applies sem ident schema H l d version k db db'). Qed.
Print Assumptions C37_up_applies.

Theorem C37_up_succeeds {S : Type} (sem : str -> S -> option S) (ident : str -> option str) (schema : str) l d version k db r db' t cur to names vs :
  ident schema = Some schema ->
  reachable d -> migrated sem ident schema db ->
  finds db schema t -> newest (t_rows t) cur -> target d version to ->
  path d (v_name (r_version cur)) names to -> Forall2 (stored d) names vs ->
  Forall fits vs -> (forall v r, v ∈ vs -> r ∈ t_rows t -> v_name (r_version r) <> v_name v) ->
  (t_next t + Z.of_nat (length vs) <= 2147483648)%Z ->
  run (up sem ident l d schema version) k db = (r, db') -> r <> Killed ->
  (exists u', runs sem (vs ≫= v_up) (pg_user db) u' /\ (vs = [] \/ settled sem u') /\ r = Ret () /\ pg_user db' = u') \/
  ((forall u', ~ runs sem (vs ≫= v_up) (pg_user db) u') /\ r = Abort) \/
  (exists u', runs sem (vs ≫= v_up) (pg_user db) u' /\ vs <> [] /\ ~ settled sem u' /\ r = Raise DbError).
Proof. intros H. exact (up_succeeds sem ident schema H l d version k db r db' t cur to names vs). Qed.
Print Assumptions C37_up_succeeds.

Example C37_example :
  well_named ex_d5 /\ plain_dir ex_d5 /\ migrated log_sem pg_ident podo empty_db /\
  log_up ex_d5 None empty_db = (Ret (), ex_db1) /\ has_table ex_db1 podo (table_in ex_db1) /\
  row_name <$> t_rows (table_in ex_db1) = [L "init"; made_name t1 None; made_name t2 (Some (L "users"))] /\
  r_order <$> t_rows (table_in ex_db1) = [1; 2; 3]%Z.
Proof.
  split; [exact (proj1 ex_d5_named)|]. split; [exact (proj2 ex_d5_named)|]. split; [exact empty_db_migrated|].
  split; [exact ex_up|exact ex_db1_table].
Qed.

(** ** C38: [down] reverts exactly the versions after the target, newest first *)

Theorem C38_down_reverts {S : Type} (sem : str -> S -> option S) (ident : str -> option str) (schema : str) version k db db' :
  ident schema = Some schema ->
  (forall t, has_table db schema t -> distinct (t_rows t)) ->
  run (down sem ident schema version) k db = (Ret (), db') ->
  exists t cur, finds db schema t /\ newest (t_rows t) cur /\
    ((version = None /\ v_previous (r_version cur) = None /\ db' = db) \/
     exists to rt rs, match version with Some n => to = n | None => v_previous (r_version cur) = Some to end /\
       rt ∈ t_rows t /\ v_name (r_version rt) = to /\
       (forall r, r ∈ rs <-> r ∈ t_rows t /\ (r_order rt < r_order r)%Z) /\
       StronglySorted (fun a b => r_order b < r_order a)%Z rs /\
       runs sem ((r_version <$> rs) ≫= v_down) (pg_user db) (pg_user db') /\
       (rs = [] -> db' = db) /\
       (rs <> [] -> settled sem (pg_user db') /\ pg_schemas db' =
          <[schema := Some (VTable (filter (fun r => r_order r <= r_order rt)%Z (t_rows t)) (t_next t))]> (pg_schemas db))).
Proof. intros H. exact (down_reverts sem ident schema H version k db db'). Qed.
Print Assumptions C38_down_reverts.

Theorem C38_down_succeeds {S : Type} (sem : str -> S -> option S) (ident : str -> option str) (schema : str) version k db r db' t cur pre rt suf :
  ident schema = Some schema ->
  migrated sem ident schema db ->
  finds db schema t -> newest (t_rows t) cur -> t_rows t = pre ++ rt :: suf ->
  match version with Some n => v_name (r_version rt) = n | None => v_previous (r_version cur) = Some (v_name (r_version rt)) end ->
  run (down sem ident schema version) k db = (r, db') -> r <> Killed ->
  (exists u', runs sem ((r_version <$> reverse suf) ≫= v_down) (pg_user db) u' /\ (suf = [] \/ settled sem u') /\ r = Ret () /\ pg_user db' = u') \/
  ((forall u', ~ runs sem ((r_version <$> reverse suf) ≫= v_down) (pg_user db) u') /\ r = Abort) \/
  (exists u', runs sem ((r_version <$> reverse suf) ≫= v_down) (pg_user db) u' /\ suf <> [] /\ ~ settled sem u' /\ r = Raise DbError).
Proof. intros H. exact (down_succeeds sem ident schema H version k db r db' t cur pre rt suf). Qed.
Print Assumptions C38_down_succeeds.

Example C38_example :
  migrated log_sem pg_ident podo ex_db1 /\
  (forall t, has_table ex_db1 podo t -> distinct (t_rows t)) /\
  log_down None ex_db1 = (Ret (), ex_db2) /\ has_table ex_db2 podo (table_in ex_db2) /\
  row_name <$> t_rows (table_in ex_db2) = [L "init"; made_name t1 None].
Proof.
  split; [exact ex_db1_migrated|]. split; [exact ex_db1_distinct|]. split; [exact ex_down|exact ex_db2_table].
Qed.

(** ** C39: [up] followed by [down] is a round trip *)

Theorem C39_down_after_up {S : Type} (sem : str -> S -> option S) (ident : str -> option str) (schema : str) l d version k db db1 k' r db2 t cur :
  ident schema = Some schema ->
  well_named d -> plain_dir d -> migrated sem ident schema db ->
  finds db schema t -> newest (t_rows t) cur ->
  run (up sem ident l d schema version) k db = (Ret (), db1) ->
  run (down sem ident schema (Some (v_name (r_version cur)))) k' db1 = (r, db2) -> r <> Killed ->
  exists to names vs, target d version to /\ path d (v_name (r_version cur)) names to /\
    Forall2 (stored d) names vs /\ runs sem (vs ≫= v_up) (pg_user db) (pg_user db1) /\
    ((exists t2, runs sem (reverse vs ≫= v_down) (pg_user db1) (pg_user db2) /\ r = Ret () /\
        finds db2 schema t2 /\ t_rows t2 = t_rows t /\
        forall n, n <> schema -> pg_schemas db2 !! n = pg_schemas db !! n) \/
     ((forall u', ~ runs sem (reverse vs ≫= v_down) (pg_user db1) u') /\ r = Abort) \/
     (exists u', runs sem (reverse vs ≫= v_down) (pg_user db1) u' /\ ~ settled sem u' /\ r = Raise DbError)).
Proof. intros H. exact (up_down sem ident schema H l d version k db db1 k' r db2 t cur). Qed.
Print Assumptions C39_down_after_up.

Theorem C39_round_trip {S : Type} (sem : str -> S -> option S) (ident : str -> option str) (schema : str) l d version k db db1 k' r db2 t cur :
  ident schema = Some schema ->
  well_named d -> plain_dir d -> migrated sem ident schema db ->
  finds db schema t -> newest (t_rows t) cur ->
  (forall n v, stored d n v -> forall x y, runs sem (v_up v) x y -> runs sem (v_down v) y x) -> settled sem (pg_user db) ->
  run (up sem ident l d schema version) k db = (Ret (), db1) ->
  run (down sem ident schema (Some (v_name (r_version cur)))) k' db1 = (r, db2) -> r <> Killed ->
  r = Ret () /\ pg_user db2 = pg_user db /\
  (exists t2, finds db2 schema t2 /\ t_rows t2 = t_rows t) /\
  forall n, n <> schema -> pg_schemas db2 !! n = pg_schemas db !! n.
Proof. intros H. exact (up_down_round_trip sem ident schema H l d version k db db1 k' r db2 t cur). Qed.
Print Assumptions C39_round_trip.

Example C39_example :
  well_named toy_dir /\ plain_dir toy_dir /\ migrated stack_sem pg_ident podo toy_db1 /\
  (forall n v, stored toy_dir n v -> forall x y, runs stack_sem (v_up v) x y -> runs stack_sem (v_down v) y x) /\
  settled stack_sem (pg_user toy_db1) /\
  stack_up None toy_db1 = (Ret (), toy_db2) /\ stack_down (Some (L "a")) toy_db2 = (Ret (), toy_db3) /\
  pg_user toy_db1 = [L "+a"; L "a"] /\ pg_user toy_db2 = [L "+b"; L "b"; L "+a"; L "a"] /\
  pg_user toy_db3 = pg_user toy_db1.
Proof.
  destruct toy_runs as (_ & H1 & H2 & _). destruct toy_states as (H3 & H4 & H5 & _).
  split; [exact toy_named|]. split; [exact toy_plain|]. split; [exact toy_migrated|]. split; [exact toy_undone|]. split; [exact (toy_settled _)|].
  split; [exact H1|]. split; [exact H2|]. split; [exact H3|]. split; [exact H4|exact H5].
Qed.

(** ** C40: the current version of the database is the last applied one

    The second half, that the recorded chain is a path of the file history, is false when
    [up] is given the stage as its target: the next [make] renames that version, and from
    then on [up] fails for ever.  It holds if [up] is never given the stage. *)
Theorem C40_chain_is_path_refuted :
  exists (sem : str -> list str -> option (list str)) ident schema d (db : pg (list str)) t,
    ident schema = Some schema /\ together sem ident schema (fun _ => True) d db /\ has_table db schema t /\
    (forall names to, v_name <$> (r_version <$> t_rows t) = L "init" :: names -> ~ path d (L "init") names to) /\
    (forall l k db', run (up sem ident l d schema None) k db <> (Ret (), db')).
Proof. exact refute_chain_is_path. Qed.
Print Assumptions C40_chain_is_path_refuted.

Theorem C40_current_partial {S : Type} (sem : str -> S -> option S) (ident : str -> option str) (schema : str) d db t :
  ident schema = Some schema ->
  together sem ident schema (fun n => n <> L "stage") d db -> has_table db schema t ->
  exists cur names, newest (t_rows t) cur /\
    (forall k, (db_current_version ident schema (k, Session db db)).1 = Killed \/
               (db_current_version ident schema (k, Session db db)).1 = Ret (r_version cur)) /\
    v_name <$> (r_version <$> t_rows t) = L "init" :: names /\
    path d (L "init") names (v_name (r_version cur)) /\
    forall r, r ∈ t_rows t -> stored d (v_name (r_version r)) (r_version r).
Proof. intros H. exact (together_current sem ident schema H d db t). Qed.
Print Assumptions C40_current_partial.

Example C40_example :
  together log_sem pg_ident podo (fun n => n <> L "stage") ex_d5 ex_db2 /\ has_table ex_db2 podo (table_in ex_db2) /\
  row_name <$> t_rows (table_in ex_db2) = [L "init"; made_name t1 None].
Proof. split; [exact ex_together|exact ex_db2_table]. Qed.

(** ** C41: [up] is idempotent *)

Theorem C41_up_again {S : Type} (sem : str -> S -> option S) (ident : str -> option str) (schema : str) l l' d version k db db1 k' r db2 :
  ident schema = Some schema ->
  well_named d -> plain_dir d -> migrated sem ident schema db ->
  run (up sem ident l d schema version) k db = (Ret (), db1) ->
  run (up sem ident l' d schema version) k' db1 = (r, db2) -> r <> Killed ->
  r = Ret () /\ db2 = db1.
Proof. intros H. exact (up_again sem ident schema H l l' d version k db db1 k' r db2). Qed.
Print Assumptions C41_up_again.

Example C41_example :
  well_named toy_dir /\ plain_dir toy_dir /\ migrated stack_sem pg_ident podo toy_db1 /\
  stack_up None toy_db1 = (Ret (), toy_db2) /\ stack_up None toy_db2 = (Ret (), toy_db2) /\
  pg_user toy_db2 <> pg_user toy_db1.
Proof.
  destruct toy_runs as (_ & H1 & _ & H2). destruct toy_states as (H3 & H4 & _).
  split; [exact toy_named|]. split; [exact toy_plain|]. split; [exact toy_migrated|].
  split; [exact H1|]. split; [exact H2|]. rewrite H3, H4. intros H. discriminate H.
Qed.

(** ** C42: [down] never reverts the initial version *)

Theorem C42_init_stays {S : Type} (sem : str -> S -> option S) (ident : str -> option str) (schema : str) db t :
  ident schema = Some schema ->
  migrated sem ident schema db -> has_table db schema t ->
  exists o, Row new_init o ∈ t_rows t.
Proof. intros H. exact (init_stays sem ident schema H db t). Qed.
Print Assumptions C42_init_stays.

Theorem C42_down_spares_oldest {S : Type} (sem : str -> S -> option S) (ident : str -> option str) (schema : str) version k db r db' t x :
  ident schema = Some schema ->
  (forall t, has_table db schema t -> distinct (t_rows t)) -> has_table db schema t ->
  x ∈ t_rows t -> (forall y, y ∈ t_rows t -> r_order x <= r_order y)%Z ->
  run (down sem ident schema version) k db = (r, db') ->
  (exists t', has_table db' schema t' /\ x ∈ t_rows t') /\
  (r = Ret () -> exists rs, (forall y, y ∈ rs -> y ∈ t_rows t /\ y <> x) /\
     runs sem ((r_version <$> rs) ≫= v_down) (pg_user db) (pg_user db')).
Proof. intros H. exact (down_spares_oldest sem ident schema H version k db r db' t x). Qed.
Print Assumptions C42_down_spares_oldest.

Example C42_example :
  migrated log_sem pg_ident podo ex_db2 /\ has_table ex_db2 podo (table_in ex_db2) /\
  row_name <$> t_rows (table_in ex_db2) = [L "init"; made_name t1 None].
Proof. split; [exact ex_db2_migrated|exact ex_db2_table]. Qed.

(** ** C43: the version table stays a chain

    That inserting and deleting rows never violates a constraint is part of C37 and C38: a
    migration of a reachable database aborts only if one of the scripts' statements fails. *)

Theorem C43_chain {S : Type} (sem : str -> S -> option S) (ident : str -> option str) (schema : str) db t :
  ident schema = Some schema ->
  migrated sem ident schema db -> has_table db schema t -> chained t.
Proof. intros H. exact (migrated_chained sem ident schema H db t). Qed.
Print Assumptions C43_chain.

Example C43_example :
  migrated log_sem pg_ident podo ex_db1 /\ has_table ex_db1 podo (table_in ex_db1) /\
  row_name <$> t_rows (table_in ex_db1) = [L "init"; made_name t1 None; made_name t2 (Some (L "users"))].
Proof. split; [exact ex_db1_migrated|]. split; [exact (proj1 ex_db1_table)|exact (proj1 (proj2 ex_db1_table))]. Qed.

(** ** C56: any metadata schema can be configured

    False: the schema is created under the name the server reads, but looked up under the
    name as it is written, so with [Podo] every migration fails, and changes nothing.  With
    names read as they are written, C37 applies. *)
Theorem C56_any_schema_refuted :
  exists schema : str, pg_ident schema <> None /\
    forall (S : Type) (sem : str -> S -> option S) l d version k db r db',
      pg_schemas db !! schema = None -> run (up sem pg_ident l d schema version) k db = (r, db') -> r <> Ret ().
Proof. exact refute_schema_name. Qed.
Print Assumptions C56_any_schema_refuted.

Theorem C56_misread_schema_fails {S : Type} (sem : str -> S -> option S) (ident : str -> option str) (schema : str) l d version k db r db' :
  ident schema <> Some schema -> pg_schemas db !! schema = None ->
  run (up sem ident l d schema version) k db = (r, db') \/ run (down sem ident schema version) k db = (r, db') ->
  r <> Ret () /\ pg_schemas db' !! schema = None.
Proof. exact (misread_fails sem ident schema l d version k db r db'). Qed.
Print Assumptions C56_misread_schema_fails.

Theorem C56_new_database_partial {S : Type} (sem : str -> S -> option S) (ident : str -> option str) (schema : str)
    l ns d k db r db' :
  ident schema = Some schema ->
  made_in ns d -> Forall short ns -> (Z.of_nat (length ns) < 2147483647)%Z ->
  (forall n v, n ∈ ns -> stored d n v -> Forall (fun s : str => 0%N ∉ s) (v_up v ++ v_down v)) ->
  pg_schemas db !! schema = None ->
  run (up sem ident l d schema None) k db = (r, db') -> r <> Killed ->
  exists vs, Forall2 (stored d) ns vs /\
    ((exists u', runs sem (vs ≫= v_up) (pg_user db) u' /\ (vs = [] \/ settled sem u') /\ r = Ret () /\ pg_user db' = u') \/
     ((forall u', ~ runs sem (vs ≫= v_up) (pg_user db) u') /\ r = Abort) \/
     (exists u', runs sem (vs ≫= v_up) (pg_user db) u' /\ vs <> [] /\ ~ settled sem u' /\ r = Raise DbError)).
Proof. intros H. exact (up_new_database sem ident schema H l ns d k db r db'). Qed.
Print Assumptions C56_new_database_partial.

Example C56_example :
  pg_ident podo = Some podo /\ made_in ex_names ex_d5 /\ Forall short ex_names /\
  (forall n v, stored ex_d5 n v -> Forall (fun s : str => 0%N ∉ s) (v_up v ++ v_down v)) /\
  log_up ex_d5 None empty_db = (Ret (), ex_db1).
Proof.
  split; [exact podo_ident|]. split; [exact ex_d5_made_in|]. split; [exact ex_names_short|].
  split; [exact ex_d5_text|exact ex_up].
Qed.

(** ** C57: every version that can be made can be applied

    False: [make] accepts names the version table cannot hold.  They are the only ones. *)
Theorem C57_applicable_refuted :
  exists d n v, reachable d /\ stored d n v /\ n <> L "stage" /\
    forall (S : Type) (sem : str -> S -> option S) ident schema l version k db r db',
      ident schema = Some schema -> pg_schemas db !! schema = None -> version = None \/ version = Some n ->
      run (up sem ident l d schema version) k db = (r, db') -> r <> Ret ().
Proof. exact refute_applicable. Qed.
Print Assumptions C57_applicable_refuted.

Theorem C57_too_long {S : Type} (sem : str -> S -> option S) (ident : str -> option str) (schema : str) l d n v version k db r db' :
  ident schema = Some schema ->
  reachable d -> stored d n v -> n <> L "stage" -> 128 < length n -> version = None \/ version = Some n ->
  pg_schemas db !! schema = None ->
  run (up sem ident l d schema version) k db = (r, db') -> r <> Ret ().
Proof. intros H. exact (too_long sem ident schema H l d n v version k db r db'). Qed.
Print Assumptions C57_too_long.

Theorem C57_fits_partial ns d n v :
  made_in ns d -> Forall short ns -> stored d n v ->
  Forall (fun s : str => 0%N ∉ s) (v_up v ++ v_down v) -> fits v.
Proof. exact (short_fits ns d n v). Qed.
Print Assumptions C57_fits_partial.

Theorem C57_made_name_short now name :
  timestamp now -> 0%N ∉ now -> 0%N ∉ default [] name -> length (default [] name) <= 112 -> short (made_name now name).
Proof. exact (made_name_short now name). Qed.
Print Assumptions C57_made_name_short.

(** Exactly what the first [up] of a project needs, for C56 and C57: the server reads the name of the
    schema as it is written, the names fit, the statements are texts, they succeed, and nothing
    that was put off fails. *)
Theorem C57_first_up_iff {S : Type} (sem : str -> S -> option S) (ident : str -> option str) (schema : str) l ns d k db r db' :
  made_in ns d -> (Z.of_nat (length ns) < 2147483647)%Z -> pg_schemas db !! schema = None ->
  run (up sem ident l d schema None) k db = (r, db') -> r <> Killed ->
  exists vs, Forall2 (stored d) ns vs /\
    (r = Ret () <->
     ident schema = Some schema /\
     Forall short ns /\ Forall (fun v => Forall (fun s : str => 0%N ∉ s) (v_up v ++ v_down v)) vs /\
     exists u', runs sem (vs ≫= v_up) (pg_user db) u' /\ (vs = [] \/ settled sem u')).
Proof. exact (first_up_exactly sem ident schema l ns d k db r db'). Qed.
Print Assumptions C57_first_up_iff.

Example C57_example :
  reachable long_d /\ length (made_name t1 (Some long_name)) = 129 /\
  made_in ex_names ex_d5 /\ Forall short ex_names /\
  (forall n v, stored ex_d5 n v -> Forall (fun s : str => 0%N ∉ s) (v_up v ++ v_down v)).
Proof.
  split; [exact long_reachable|]. split; [vm_compute; reflexivity|]. split; [exact ex_d5_made_in|].
  split; [exact ex_names_short|exact ex_d5_text].
Qed.
