(** A PostgreSQL server that does what it is told, for the examples and the refutations about
    the statements. *)
From Verif Require Import Base Text Types Changes SpecSnapshot SpecMerge SpecDiff Diff DecideSpec DiffOrder SnapshotExamples Sql SpecSql
  History SpecHistory HistoryLemmas HistoryLoad HistoryProofs HistoryRun HistoryClaims HistoryExamples Dbh SpecDb DbLemmas
  DbRun DbSteps DbClaims DbChain DbProofs DbNames DbExamples SpecLex SpecStatement SpecServer SpecAccept SpecObey SayLemmas ServerLemmas
  ObeyLemmas DecideServer.

(** ** The server *)
Definition fresh : server := {[P := SchemaState ∅ ∅]}.
Definition pg_sem (sql : str) (sv : server) : option server :=
  if decide (sql = L "COMMIT") then Some sv else obey sql sv.

Lemma render_not_commit c : render_sql c <> L "COMMIT".
Proof.
  intros H. apply (f_equal (take 2)) in H.
  destruct c; cbn [render_sql] in H; try (vm_compute in H; discriminate).
  all: repeat match goal with b : bool |- _ => destruct b | d : option str |- _ => destruct d end;
    vm_compute in H; discriminate.
Qed.
Lemma pg_sem_obedient : obedient pg_sem (fun sv => sv).
Proof.
  intros c u u' _ H. unfold pg_sem in H. rewrite decide_False in H by apply render_not_commit. split.
  - intros _. unfold obey in H. destruct (read_statement (render_sql c)) as [st|]; [by eexists|discriminate].
  - intros sv H'. congruence.
Qed.
(** The snapshot of the version init describes a database that was just created. *)
Definition sv_init : database := mk_db [Schema P ∅ ∅].
Lemma init_wf : wf_db sv_init.
Proof. by_computation. Qed.
Lemma fresh_described : described sv_init fresh.
Proof.
  intros n. unfold fresh. destruct (decide (n = P)) as [->|Hn].
  - assert (db_schemas sv_init !! P = Some (Schema P ∅ ∅)) as -> by (vm_compute; reflexivity).
    rewrite lookup_singleton. constructor. split; intros m; cbn; rewrite !lookup_empty; constructor.
  - rewrite lookup_singleton_ne by done.
    assert (db_schemas sv_init = {[P := Schema P ∅ ∅]}) as -> by (vm_compute; reflexivity).
    rewrite lookup_singleton_ne by done. constructor.
Qed.

(** ** A history whose statements say what they mean *)
Definition sv_users (ty : string) (nn : bool) (d : option str) (c : constraint) : relation :=
  RTable (Table P (L "users")
    [col (L "users") (L "id") (L ty) nn None;
     col (L "users") (L "name") (L "character varying(20)") false d]
    (mk_constraints [c; CCheck (Check P (L "users") (L "named") (L "(name <> '')") false false)])).
Definition sv_first : database := mk_db
  [Schema P
    (mk_relations
      [sv_users "int4" false (Some (L "'nobody'::text"))
         (CUnique (Unique P (L "users") (L "users_key") [L "id"; L "name"] true false));
       RIndex (users_index [L "name"]);
       RView (View P (L "names") (L "SELECT name FROM users"));
       RSequence (counter 100 None)])
    ∅].
Definition sv_second : database := mk_db
  [Schema P
    (mk_relations
      [sv_users "int8" true None (CPrimaryKey (PrimaryKey P (L "users") (L "users_key") [L "id"] false false));
       RIndex (users_index [L "name"]);
       RSequence (counter 100 None)])
    ∅].
Definition sv_d1 : hdir := (staging sv_first ex_d0).2.2.
Definition sv_d2 : hdir := (making t1 None sv_d1).2.2.
Definition sv_d3 : hdir := (staging sv_second sv_d2).2.2.
Definition sv_d4 : hdir := (making t2 (Some (L "users")) sv_d3).2.2.
Definition sv_names : list str := [made_name t1 None; made_name t2 (Some (L "users"))].
Definition named_in (d : hdir) (n : str) : version :=
  match d !! (n ++ L ".yaml") with Some (Document v) => v | _ => new_init end.
Definition sv_versions : list version := named_in sv_d4 <$> sv_names.

Lemma sv_d1_command : command ex_d0 sv_d1.
Proof. apply staging_command. vm_compute. reflexivity. Qed.
Lemma sv_d2_command : command sv_d1 sv_d2.
Proof. apply making_command; [vm_compute; reflexivity|exact ex_name1_plain|vm_compute; reflexivity]. Qed.
Lemma sv_d3_command : command sv_d2 sv_d3.
Proof. apply staging_command. vm_compute. reflexivity. Qed.
Lemma sv_d4_command : command sv_d3 sv_d4.
Proof. apply making_command; [vm_compute; reflexivity|exact ex_name2_plain|vm_compute; reflexivity]. Qed.
Definition pg0 : pg server := Pg fresh ∅.
Lemma sv_d0_together allowed : together pg_sem pg_ident podo allowed ex_d0 pg0.
Proof. eapply together_init; [|done]. apply (pair_eta (init_history (4, ∅))). vm_compute. reflexivity. Qed.
Lemma sv_d4_together allowed : together pg_sem pg_ident podo allowed sv_d4 pg0.
Proof.
  eapply together_command; [|exact sv_d4_command]. eapply together_command; [|exact sv_d3_command].
  eapply together_command; [|exact sv_d2_command]. eapply together_command; [|exact sv_d1_command]. apply sv_d0_together.
Qed.
Lemma sv_d4_reachable : reachable sv_d4.
Proof. exact (together_reachable pg_sem pg_ident podo _ _ _ (sv_d4_together (fun _ => True))). Qed.

Definition pg_up (d : hdir) (version : option str) (db : pg server) : exec () * pg server :=
  run (up pg_sem pg_ident sorted_listing d podo version) 1000 db.
Definition pg_down (version : option str) (db : pg server) : exec () * pg server :=
  run (down pg_sem pg_ident podo version) 1000 db.
Definition pg1 : pg server := (pg_up sv_d4 None pg0).2.
Definition pg2 : pg server := (pg_down (Some (L "init")) pg1).2.
Lemma sv_up : pg_up sv_d4 None pg0 = (Ret (), pg1).
Proof. run_to (pg_up sv_d4 None pg0). Qed.
Lemma sv_down : pg_down (Some (L "init")) pg1 = (Ret (), pg2).
Proof. run_to (pg_down (Some (L "init")) pg1). Qed.
Lemma pg1_together : together pg_sem pg_ident podo (fun n => n <> L "stage") sv_d4 pg1.
Proof. eapply (together_up _ _ _ _ _ _ _ None); [apply sv_d4_together|discriminate|exact sv_up]. Qed.

Lemma sv_path : SpecHistory.path sv_d4 (L "init") sv_names (L "20240102_093000-users") /\ Forall2 (stored sv_d4) sv_names sv_versions.
Proof.
  split.
  - apply (range_named_iff _ _ _ _ (proj1 (reachable_dir sv_d4 sv_d4_reachable))). vm_compute. reflexivity.
  - constructor; [by_computation|]. constructor; [by_computation|constructor].
Qed.
Lemma sv_snapshots : calculate_snapshot sv_d4 (L "init") = Ret sv_init /\
  calculate_snapshot sv_d4 (L "20240102_093000-users") = Ret sv_second.
Proof. split; by_computation. Qed.
Lemma sv_changes : length (all_changes sv_versions) = 12 /\
  Forall well_spelled (all_changes sv_versions) /\ faithful sv_init (all_changes sv_versions) /\
  acceptable sv_init (all_changes sv_versions).
Proof.
  assert (Hw : Forall well_spelled (all_changes sv_versions)) by by_computation.
  assert (Hf : faithful sv_init (all_changes sv_versions)) by by_computation.
  split; [vm_compute; reflexivity|]. split; [exact Hw|]. split; [exact Hf|].
  apply (shown_acceptable _ _ fresh); [exact init_wf|exact fresh_described|exact Hw| |exact Hf|]; vm_compute; exact I.
Qed.
Lemma sv_back : taken_back sv_init sv_versions.
Proof. apply (check_back_taken _ fresh); [exact init_wf|exact fresh_described|]. vm_compute. reflexivity. Qed.

(** ** Effects besides *)
Lemma applied (m : database * result ()) d :
  match m with (d', Ok _) => bool_decide (d' = d) | _ => false end = true -> m = (d, Ok ()).
Proof. destruct m as [d' [[]|e]]; [|done]. by intros ->%bool_decide_eq_true. Qed.
Definition sv_at (cs : list change) : server := default fresh (obey_all (render_sql <$> cs) fresh).
Definition first_changes : list change := v_changes (named_in sv_d4 (made_name t1 None)).
Lemma first_described : described sv_first (sv_at first_changes) /\ wf_db sv_first.
Proof.
  split; [|by_computation].
  apply (runs_faithful first_changes sv_init fresh); [by_computation|by_computation|exact fresh_described| | |by_computation].
  - apply applied. vm_compute. reflexivity.
  - apply obey_all_runs. by_computation.
Qed.
Definition key_change : change := AddPrimaryKey P (L "users") (L "users_pkey") [L "id"] false false.
Definition drop_change : change := DropTable P (L "users").
Definition after (c : change) (d : database) : database := (apply c d).1.
Lemma after_ok c d : match (apply c d).2 with Ok _ => True | _ => False end -> apply c d = (after c d, Ok ()).
Proof. unfold after. by destruct (apply c d) as [? [[]|]]. Qed.
Definition sv_after (c : change) (sv : server) : server := default sv (obey (render_sql c) sv).
Lemma sv_after_some c sv : match obey (render_sql c) sv with Some _ => True | None => False end ->
  obey (render_sql c) sv = Some (sv_after c sv).
Proof. unfold sv_after. by destruct (obey _ _). Qed.
Definition refuting (c : change) : Prop :=
  exists d sv d' sv', well_spelled c /\ wf_db d /\ described d sv /\ says (render_sql c) c /\
    apply c d = (d', Ok ()) /\ obey (render_sql c) sv = Some sv' /\ ~ described d' sv'.
Lemma effect_besides c : well_spelled c -> sayable c -> ~ plain_effect c sv_first ->
  match (apply c sv_first).2 with Ok _ => True | _ => False end ->
  match obey (render_sql c) (sv_at first_changes) with Some _ => True | None => False end -> refuting c.
Proof.
  intros H1 H2 H3 H4%after_ok H5%sv_after_some. destruct first_described as [Hd Hw].
  exists sv_first, (sv_at first_changes), (after c sv_first), (sv_after c (sv_at first_changes)).
  split; [done|]. split; [done|]. split; [done|]. split; [by apply says_iff|]. split; [done|]. split; [done|].
  intros K. apply H3. by apply (obey_iff c sv_first (sv_at first_changes) _ _ H1 Hw Hd H4 H5) in K as [_ K].
Qed.
Lemma refute_effects :
  refuting (AddPrimaryKey P (L "users") (L "users_pkey") [L "id"] false false) /\
  refuting (DropColumn P (L "users") (L "id")) /\ refuting (DropTable P (L "users")).
Proof.
  split_and!.
  all: apply effect_besides; [by_computation|by_computation|by_computation|vm_compute; exact I|vm_compute; exact I].
Qed.

(** ** A column that must not be null *)
Definition one_table (cols : list column) : database :=
  mk_db [Schema P (mk_relations [RTable (Table P (L "users") cols ∅)]) ∅].
Definition nn_first : database := one_table [col (L "users") (L "id") (L "int4") true None].
Definition nn_d1 : hdir := (staging nn_first ex_d0).2.2.
Definition nn_d2 : hdir := (making t1 None nn_d1).2.2.
Definition nn_change : change := CreateTable P (L "users") [CreateTableColumn (L "id") (L "int4") true None].
Definition nn_name : str := made_name t1 None.
Definition nn_pg : pg server := (pg_up nn_d2 (Some nn_name) pg0).2.
Lemma staging_together (allowed : str -> Prop) (t : database) (d : hdir) (db : pg server) : (staging t d).1 = Ret () ->
  together pg_sem pg_ident podo allowed d db -> together pg_sem pg_ident podo allowed (staging t d).2.2 db.
Proof. intros H Hd. eapply together_command; [exact Hd|by apply staging_command]. Qed.
Lemma making_together (allowed : str -> Prop) (now : str) (name : option str) (d : hdir) (db : pg server) :
  d !! (made_name now name ++ L ".yaml") = None -> plain_name (made_name now name) -> (making now name d).1 = Ret () ->
  together pg_sem pg_ident podo allowed d db -> together pg_sem pg_ident podo allowed (making now name d).2.2 db.
Proof. intros H1 H2 H3 Hd. eapply together_command; [exact Hd|by apply making_command]. Qed.
Ltac staged_ := apply staging_together; [vm_compute; reflexivity|].
Ltac made_ H := apply making_together; [vm_compute; reflexivity|exact H|vm_compute; reflexivity|].
Lemma nn_together allowed : together pg_sem pg_ident podo allowed nn_d2 pg0.
Proof. unfold nn_d2, nn_d1. made_ ex_name1_plain. staged_. apply sv_d0_together. Qed.
Lemma nn_up : pg_up nn_d2 (Some nn_name) pg0 = (Ret (), nn_pg).
Proof. run_to (pg_up nn_d2 (Some nn_name) pg0). Qed.
Lemma refute_up :
  exists (d : hdir) k db db' d0 d1 to,
    together pg_sem pg_ident podo (fun n => n <> L "stage") d db /\ pg_schemas db !! podo = None /\ to <> L "stage" /\
    calculate_snapshot d (L "init") = Ret d0 /\ described d0 (pg_user db) /\
    run (up pg_sem pg_ident sorted_listing d podo (Some to)) k db = (Ret (), db') /\
    calculate_snapshot d to = Ret d1 /\ ~ described d1 (pg_user db').
Proof.
  exists nn_d2, 1000, pg0, nn_pg, sv_init, nn_first, nn_name.
  split; [apply nn_together|]. split; [done|]. split; [by_computation|]. split; [by_computation|].
  split; [exact fresh_described|]. split; [exact nn_up|]. split; [by_computation|].
  assert (pg_user nn_pg = sv_after nn_change fresh) as -> by by_computation.
  assert (nn_first = after nn_change sv_init) as -> by by_computation.
  assert (Hw : well_spelled nn_change) by by_computation.
  assert (Ha : apply nn_change sv_init = (after nn_change sv_init, Ok ())) by (apply after_ok; vm_compute; exact I).
  assert (Ho : obey (render_sql nn_change) fresh = Some (sv_after nn_change fresh)) by (apply sv_after_some; vm_compute; exact I).
  intros K. apply (obey_iff _ _ _ _ _ Hw init_wf fresh_described Ha Ho) in K as [K _].
  revert K. by_computation.
Qed.

(** ** A column that is dropped, and comes back *)
Definition dc_first : database :=
  one_table [col (L "users") (L "id") (L "int4") false None; col (L "users") (L "name") (L "text") false None].
Definition dc_second : database := one_table [col (L "users") (L "id") (L "int4") false None].
Definition dc_d1 : hdir := (staging dc_first ex_d0).2.2.
Definition dc_d2 : hdir := (making t1 None dc_d1).2.2.
Definition dc_d3 : hdir := (staging dc_second dc_d2).2.2.
Definition dc_d4 : hdir := (making t2 (Some (L "users")) dc_d3).2.2.
Lemma dc_together allowed : together pg_sem pg_ident podo allowed dc_d4 pg0.
Proof.
  unfold dc_d4, dc_d3, dc_d2, dc_d1. made_ ex_name2_plain. staged_. made_ ex_name1_plain. staged_. apply sv_d0_together.
Qed.
Definition dc_up : pg server := (pg_up dc_d4 None pg0).2.
Definition dc_down : pg server := (pg_down None dc_up).2.
Lemma dc_went_up : pg_up dc_d4 None pg0 = (Ret (), dc_up).
Proof. run_to (pg_up dc_d4 None pg0). Qed.
Lemma dc_went_down : pg_down None dc_up = (Ret (), dc_down).
Proof. run_to (pg_down None dc_up). Qed.
Definition dc_changes : list change := all_changes (named_in dc_d4 <$> sv_names).
Lemma dc_described : described dc_second (pg_user dc_up).
Proof.
  apply (runs_faithful dc_changes sv_init fresh); [by_computation|exact init_wf|exact fresh_described| | |by_computation].
  - apply applied. vm_compute. reflexivity.
  - apply obey_all_runs. by_computation.
Qed.
Definition dc_back : change := AddColumn P (L "users") (L "name") (L "text") false None.
Lemma refute_down :
  exists (d : hdir) k db db' d0 d1 from to,
    together pg_sem pg_ident podo (fun n => n <> L "stage") d db /\
    (forall t, has_table db podo t -> v_name <$> (r_version <$> t_rows t) = [L "init"; to; from]) /\
    calculate_snapshot d from = Ret d1 /\ described d1 (pg_user db) /\
    run (down pg_sem pg_ident podo None) k db = (Ret (), db') /\
    calculate_snapshot d to = Ret d0 /\ ~ described d0 (pg_user db').
Proof.
  exists dc_d4, 1000, dc_up, dc_down, dc_first, dc_second, (made_name t2 (Some (L "users"))), (made_name t1 None).
  split; [eapply (together_up _ _ _ _ _ _ _ None); [apply dc_together|discriminate|exact dc_went_up]|].
  split.
  { intros t Ht. unfold has_table in Ht.
    assert (match pg_schemas dc_up !! podo with Some (Some t) => v_name <$> (r_version <$> t_rows t) | _ => [] end =
      [L "init"; made_name t1 None; made_name t2 (Some (L "users"))]) as K by (vm_compute; reflexivity).
    by rewrite Ht in K. }
  split; [by_computation|]. split; [exact dc_described|]. split; [exact dc_went_down|]. split; [by_computation|].
  assert (pg_user dc_down = sv_after dc_back (pg_user dc_up)) as -> by by_computation.
  assert (dc_first = after dc_back dc_second) as -> by by_computation.
  assert (Hw : well_spelled dc_back) by by_computation. assert (Hwf : wf_db dc_second) by by_computation.
  assert (Ha : apply dc_back dc_second = (after dc_back dc_second, Ok ())) by (apply after_ok; vm_compute; exact I).
  assert (Ho : obey (render_sql dc_back) (pg_user dc_up) = Some (sv_after dc_back (pg_user dc_up)))
    by (apply sv_after_some; vm_compute; exact I).
  intros K. apply (obey_iff _ _ _ _ _ Hw Hwf dc_described Ha Ho) in K as [K _].
  revert K. by_computation.
Qed.

(** ** A foreign key *)
Definition fk_first : database := mk_db
  [Schema P
    (mk_relations
      [RTable (Table P (L "users") [col (L "users") (L "id") (L "int4") false None]
         (mk_constraints [CUnique (Unique P (L "users") (L "users_key") [L "id"] false false)]));
       RTable (Table P (L "orders") [col (L "orders") (L "buyer") (L "int4") false None]
         (mk_constraints [CForeignKey (ForeignKey P (L "orders") (L "orders_buyer") [L "buyer"] P (L "users") [L "id"]
            (L "SIMPLE") (L "NO ACTION") (L "CASCADE") false false)]))])
    ∅].
Definition fk_d1 : hdir := (staging fk_first ex_d0).2.2.
Definition fk_d2 : hdir := (making t1 None fk_d1).2.2.
Definition fk_change : change :=
  AddForeignKey P (L "orders") (L "orders_buyer") [L "buyer"] P (L "users") [L "id"] (L "SIMPLE") (L "NO ACTION") (L "CASCADE") false false.
Lemma fk_together allowed : together pg_sem pg_ident podo allowed fk_d2 pg0.
Proof. unfold fk_d2, fk_d1. made_ ex_name1_plain. staged_. apply sv_d0_together. Qed.
Lemma fk_example :
  reachable fk_d2 /\ migrated pg_sem pg_ident podo pg0 /\
  (exists names vs, SpecHistory.path fk_d2 (L "init") names (made_name t1 None) /\ Forall2 (stored fk_d2) names vs /\
    fk_change ∈ all_changes vs) /\ well_spelled fk_change /\ unreadable fk_change /\
  (pg_up fk_d2 None pg0).1 = Abort /\ (pg_up fk_d2 None pg0).2 = pg0.
Proof.
  assert (Hre : reachable fk_d2) by exact (together_reachable pg_sem pg_ident podo _ _ _ (fk_together (fun _ => True))).
  split; [done|]. split; [by constructor|]. split.
  - exists [made_name t1 None], [named_in fk_d2 (made_name t1 None)]. split; [|split; [|by_computation]].
    + apply (range_named_iff _ _ _ _ (proj1 (reachable_dir fk_d2 Hre))). vm_compute. reflexivity.
    + constructor; [by_computation|constructor].
  - split; [by_computation|]. split; [done|]. split; vm_compute; reflexivity.
Qed.

(** ** For the examples *)
Lemma refute_says : exists c, well_spelled c /\ is_Some (meant c) /\ ~ says (render_sql c) c.
Proof.
  exists fk_change. split; [by_computation|]. split; [by_computation|]. intros H.
  apply says_iff in H; [by destruct H|by_computation].
Qed.
Lemma ex_says : length (all_changes sv_versions) = 12 /\ Forall well_spelled (all_changes sv_versions) /\
  Forall sayable (all_changes sv_versions) /\ Forall (fun c => says (render_sql c) c) (all_changes sv_versions).
Proof.
  assert (Hw : Forall well_spelled (all_changes sv_versions)) by by_computation.
  assert (Hs : Forall sayable (all_changes sv_versions)) by by_computation.
  split; [vm_compute; reflexivity|]. split; [exact Hw|]. split; [exact Hs|].
  rewrite Forall_forall in Hw, Hs. apply Forall_forall. intros c Hc. apply says_iff; [by apply Hw|by apply Hs].
Qed.
Lemma ex_lost :
  (well_spelled nn_change /\ read_statement (render_sql nn_change) =
     Some (DoCreateTable P (L "users") [(L "id", ColumnSpec [Word (L "int4")] false None)])) /\
  (well_spelled dc_back /\ read_statement (render_sql dc_back) =
     Some (DoAlterTable P (L "users") (ToAddColumn (L "name") (ColumnSpec [Word (L "text")] true None)))) /\
  well_spelled fk_change /\
  (well_spelled (CreateSchema (L "Sales")) /\ read_statement (render_sql (CreateSchema (L "Sales"))) = Some (DoCreateSchema (L "sales"))).
Proof. split_and!; try by_computation; vm_compute; reflexivity. Qed.
Lemma ex_effect : exists c sv', c = DropIndex P (L "users_name") /\
  well_spelled c /\ wf_db sv_first /\ described sv_first (sv_at first_changes) /\
  apply c sv_first = (after c sv_first, Ok ()) /\ obey (render_sql c) (sv_at first_changes) = Some sv' /\
  sayable c /\ plain_effect c sv_first /\ described (after c sv_first) sv'.
Proof.
  destruct first_described as [Hd Hwf].
  exists (DropIndex P (L "users_name")), (sv_after (DropIndex P (L "users_name")) (sv_at first_changes)). split; [done|].
  assert (Hw : well_spelled (DropIndex P (L "users_name"))) by by_computation.
  assert (Ha := after_ok (DropIndex P (L "users_name")) sv_first ltac:(vm_compute; exact I)).
  assert (Ho := sv_after_some (DropIndex P (L "users_name")) (sv_at first_changes) ltac:(vm_compute; exact I)).
  split; [exact Hw|]. split; [exact Hwf|]. split; [exact Hd|]. split; [exact Ha|]. split; [exact Ho|].
  split; [exact I|]. split; [exact I|]. apply (obey_iff _ _ _ _ _ Hw Hwf Hd Ha Ho). split; exact I.
Qed.
Lemma ex_up_described :
  pg_ident podo = Some podo /\ obedient pg_sem (fun sv => sv) /\ reachable sv_d4 /\
  pg_up sv_d4 None pg0 = (Ret (), pg1) /\
  (SpecHistory.path sv_d4 (L "init") sv_names (L "20240102_093000-users") /\ Forall2 (stored sv_d4) sv_names sv_versions) /\
  (calculate_snapshot sv_d4 (L "init") = Ret sv_init /\
   calculate_snapshot sv_d4 (L "20240102_093000-users") = Ret sv_second) /\
  described sv_init (pg_user pg0) /\
  (length (all_changes sv_versions) = 12 /\ Forall well_spelled (all_changes sv_versions) /\
   faithful sv_init (all_changes sv_versions) /\ acceptable sv_init (all_changes sv_versions)).
Proof.
  split; [exact podo_ident|]. split; [exact pg_sem_obedient|]. split; [exact sv_d4_reachable|]. split; [exact sv_up|].
  split; [exact sv_path|]. split; [exact sv_snapshots|]. split; [exact fresh_described|exact sv_changes].
Qed.
Lemma ex_down_described :
  together pg_sem pg_ident podo (fun n => n <> L "stage") sv_d4 pg1 /\
  pg_down (Some (L "init")) pg1 = (Ret (), pg2) /\
  described sv_second (pg_user pg1) /\ taken_back sv_init sv_versions /\
  pg_user pg2 = fresh.
Proof.
  split; [exact pg1_together|]. split; [exact sv_down|]. split.
  - destruct sv_changes as (_ & Hw & Hf & _).
    apply (runs_faithful (all_changes sv_versions) sv_init fresh); [exact Hw|exact init_wf|exact fresh_described| | |exact Hf].
    + apply applied. vm_compute. reflexivity.
    + apply obey_all_runs. by_computation.
  - split; [exact sv_back|]. by_computation.
Qed.
