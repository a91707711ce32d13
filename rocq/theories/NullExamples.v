(** Tables whose columns are NOT NULL, and what becomes of it in the database. *)
From Verif Require Import Base Text Types Changes SpecSnapshot SpecMerge Diff SpecDiff DecideSpec DiffOrder SnapshotExamples
  Load Node Yaml Ddl SpecDefinition DecideDefinition SaveLemmas Sql SpecSql History
  SpecHistory HistoryLemmas HistoryProofs HistoryRun HistoryClaims HistoryExamples Dbh SpecDb DbLemmas DbRun DbClaims DbExamples
  Expand SpecExpand ExpandLemmas Project Definitions SpecDefinitions DefinitionsLemmas World SpecProject
  ProjectLemmas WorldLemmas ProjectProofs ProjectReady ProjectStatus SpecSession ProjectSession ProjectFlow ProjectClone
  Serde SpecSerde SerdeLemmas SerdeExamples DefinitionsExamples WorldExamples FlowExamples
  SpecLex SpecStatement SpecServer SpecSpelled SpecAccept SpecNull SpecObey SayLemmas ServerLemmas ObeyLemmas ObeyFlow
  DecideServer ServerExamples ObeyFlowExamples SpelledLemmas SpelledExamples NullLemmas NullDiff NullFlow.
From Verif Require CatalogExamples.

(** ** Deciding *)
Global Instance said_dec c : Decision (said c).
Proof. destruct c; cbn [said]; apply _. Defined.
Global Instance plain_drop_dec c d : Decision (plain_drop c d).
Proof. destruct c; cbn [plain_drop]; apply _. Defined.
Global Instance faithful_but_null_dec d cs : Decision (faithful_but_null d cs).
Proof.
  revert d. induction cs as [|c cs IH]; intros d; cbn [faithful_but_null]; [apply _|].
  apply and_dec; [apply _|]. apply and_dec; [apply _|].
  destruct (apply c d) as [d1 [[]|e]] eqn:E; [|left; discriminate].
  destruct (IH d1) as [H|H].
  - left. by intros d' [= <-].
  - right. intros K. by apply H, K.
Defined.
Lemma faithful_weaker d cs : faithful d cs -> faithful_but_null d cs.
Proof.
  revert d. induction cs as [|c cs IH]; intros d; [done|]. intros (H1 & H2 & H3). split; [by destruct c|]. split; [by destruct c|].
  intros d' Hd. by apply IH, H3.
Qed.
Definition check_nulls (N : nullability) (d : database) : Prop :=
  map_Forall (fun n sc => map_Forall (fun k r =>
    match r with RTable t => Forall (fun c => col_notnull c = N n k (col_name c)) (tb_columns t) | _ => True end)
    (sc_relations sc)) (db_schemas d).
Global Instance check_nulls_dec N d : Decision (check_nulls N d).
Proof. unfold check_nulls. apply map_Forall_dec. intros n sc. apply map_Forall_dec. intros k [| | |]; apply _. Defined.
Lemma check_nulls_iff N d : check_nulls N d ->
  forall s t x c, column_at d s t x = Some c -> col_notnull c = N s t x.
Proof.
  intros H s t x c Hc. unfold column_at, relation_at in Hc.
  destruct (db_schemas d !! s) as [sc|] eqn:E; [|done]. cbn in Hc.
  destruct (sc_relations sc !! t) as [[tb| | |]|] eqn:Et; try done.
  pose proof (H s sc E t _ Et) as K. cbn in K.
  apply ColumnLemmas.find_column_Some in Hc as [Hi <-]. rewrite Forall_forall in K. by apply K.
Qed.

(** ** Two databases *)
Definition nl_db (id name : bool) : database := mk_db
  [Schema P
    (mk_relations
      [RTable (Table P (L "users")
         [col (L "users") (L "id") (L "int4") id None; col (L "users") (L "name") (L "text") name None]
         (mk_constraints [CPrimaryKey (PrimaryKey P (L "users") (L "users_pkey") [L "id"] false false)]))])
    ∅].
(** The key must not be null; nor must the name. *)
Definition nl_keyed : database := nl_db true false.
Definition nl_named : database := nl_db true true.
Definition nl_diff (t : database) : list change := compare_diff any_order table_first sv_init t.

Lemma nl_good t : wf_db t -> spelled_db t -> apply_all (nl_diff t) sv_init = (t, Ok ()) ->
  faithful_but_null sv_init (nl_diff t) -> match obey_all (render_sql <$> nl_diff t) fresh with Some _ => True | None => False end ->
  Forall well_spelled (nl_diff t) /\ acceptable sv_init (nl_diff t).
Proof.
  intros Ht St Ha Hf H%obeyed.
  assert (Hw : Forall well_spelled (nl_diff t)).
  { apply diff_spelled; [exact init_wf|exact Ht|apply check_spelled_iff; by_computation|exact St]. }
  split; [exact Hw|]. exact (proj1 (accepted_but_null _ _ _ _ Hw init_wf fresh_described Ha Hf) H).
Qed.
Lemma init_spelled : spelled_db sv_init.
Proof. apply check_spelled_iff. by_computation. Qed.

Definition nl_case (t : database) : Prop :=
  wf_db t /\ spelled_db t /\ apply_all (nl_diff t) sv_init = (t, Ok ()) /\ faithful_but_null sv_init (nl_diff t) /\
  acceptable sv_init (nl_diff t) /\ index_attributes_agree sv_init t /\ new_sequences_unowned sv_init t.
Ltac nl_case :=
  match goal with |- nl_case ?t =>
    assert (Hwt : wf_db t) by by_computation;
    assert (Hst : spelled_db t) by (apply check_spelled_iff; by_computation);
    assert (Hat : apply_all (nl_diff t) sv_init = (t, Ok ())) by (apply applied; vm_compute; reflexivity);
    assert (Hft : faithful_but_null sv_init (nl_diff t)) by by_computation;
    split; [exact Hwt|]; split; [exact Hst|]; split; [exact Hat|]; split; [exact Hft|];
    split; [apply (nl_good t Hwt Hst Hat Hft); vm_compute; exact I|];
    split; [apply check_index_attributes_1|apply check_new_sequences_1]; by_computation
  end.
Lemma nl_keyed_case : nl_case nl_keyed.
Proof. nl_case. Qed.
Lemma nl_named_case : nl_case nl_named.
Proof. nl_case. Qed.
Lemma nl_keyed_nulls : nulls_kept sv_init nl_keyed.
Proof.
  apply (nulls_kept_iff any_order table_first sv_init nl_keyed init_wf (proj1 nl_keyed_case)).
  apply check_nulls_iff. by_computation.
Qed.
Lemma nl_named_nulls : ~ nulls_kept sv_init nl_named.
Proof.
  intros H. pose proof (proj2 (nulls_kept_iff any_order table_first sv_init nl_named init_wf (proj1 nl_named_case)) H) as H'. clear H.
  specialize (H' P (L "users") (L "name") (col (L "users") (L "name") (L "text") true None)).
  assert (K : column_at nl_named P (L "users") (L "name") = Some (col (L "users") (L "name") (L "text") true None)) by by_computation.
  apply H' in K. clear H'. revert K. vm_compute. discriminate.
Qed.
Lemma nl_keyed_beyond : ~ faithful sv_init (nl_diff nl_keyed) /\ ~ difference_sayable sv_init nl_keyed.
Proof.
  split; [by_computation|]. apply (not_sayable_by _ _ init_wf (proj1 nl_keyed_case)). by_computation.
Qed.

(** Each of them from a database that was just created. *)
Lemma ex_nulls : wf_db sv_init /\ spelled_db sv_init /\ described sv_init fresh /\
  (nl_case nl_keyed /\ ~ faithful sv_init (nl_diff nl_keyed) /\ nulls_kept sv_init nl_keyed) /\
  (nl_case nl_named /\ ~ nulls_kept sv_init nl_named).
Proof.
  split; [exact init_wf|]. split; [exact init_spelled|]. split; [exact fresh_described|]. split.
  - split; [exact nl_keyed_case|]. split; [exact (proj1 nl_keyed_beyond)|exact nl_keyed_nulls].
  - split; [exact nl_named_case|exact nl_named_nulls].
Qed.

(** ** Two projects *)
Definition nl_read (t : database) (text : str) : option (list (yaml * yaml)) :=
  if decide (text = L "first") then Some (document_of t) else ex_parse text.
Definition nl_documents (t : database) : documents.
Proof. by refine (Documents (nl_read t) ex_print map_to_list _ (fun _ => any_order) any_order). Defined.
Definition nl_outside (t : database) : outside server :=
  Outside _ ex_setting sorted_listing (version_of_file ex_parse) (file_of_version ex_print)
    (nl_documents t) any_order table_first t1 pg_sem pg_ident (fun _ => CatalogExamples.ex_catalogue) CatalogExamples.ex_planner.
Lemma nl_reads_base t : reads_base (nl_outside t).
Proof. apply ex_parse_print. Qed.
Lemma nl_codec t : codec (nl_outside t).
Proof. split; [|reflexivity]. intros v. apply file_back, ex_parse_print. Qed.
Definition nw0 (t : database) : world server :=
  World (cmd_init (nl_outside t) ex_dir (1000, files sv_start)).2.2 (servers sv_start).
Definition nw1 (t : database) : world server :=
  World (<[definitions_of ex_dir ++ [L "public.yaml"] := Bytes (L "first")]> (files (nw0 t))) (servers (nw0 t)).
Definition nw2 (t : database) : world server := (cmd_stage (nl_outside t) ex_dir (L "database") (1000, nw1 t)).2.2.
Definition nw3 (t : database) : world server := (cmd_make (nl_outside t) ex_dir (L "database") (Some (L "first")) (1000, nw2 t)).2.2.
Definition nw4 (t : database) : world server := (cmd_up (nl_outside t) ex_dir (L "database") None (1000, nw3 t)).2.2.
Lemma nw0_workspace t : workspace (nl_outside t) ex_dir (nw0 t).
Proof.
  unfold nw0. eapply (workspace_init _ _ (nl_outside t) 1000 sv_start _ _ pg0).
  - apply same_machine_refl.
  - intros dir [x Hx] Hd. destruct dir as [|a [|]]; [done| |discriminate Hx].
    injection Hx as <- _. vm_compute. reflexivity.
  - intros dir' [[x Hx] [n Hn]]. destruct dir' as [|a [|]]; [| |discriminate Hx].
    + revert Hn. vm_compute. discriminate.
    + change (files sv_start) with (files ex_start) in Hn. rewrite start_none in Hn; [discriminate|]. right. discriminate.
  - intros q [x ->]. apply start_none. left. eexists. split; [reflexivity|discriminate].
  - intros q [x ->]. apply start_none. left. eexists. split; [reflexivity|discriminate].
  - apply lookup_singleton.
  - apply lookup_empty.
  - apply pair_eta. vm_compute. reflexivity.
Qed.
Lemma nw1_workspace t : workspace (nl_outside t) ex_dir (nw1 t).
Proof.
  unfold nw1. apply workspace_edit; [exact (nw0_workspace t)|].
  intros q Hq. rewrite lookup_insert_ne; [reflexivity|]. intros <-. apply Hq. by eexists.
Qed.
Definition nl_history (t : database) (w : world server) : hdir := history_at (nl_outside t) (history_of ex_dir) (files w).
Definition nl_stage (t : database) (w : world server) : version := named_in (nl_history t w) (L "stage").

(** The commands of a session that stages, makes and applies the definitions. *)
Definition nl_session (t : database) : Prop :=
  (nearest (files (nw1 t)) ex_dir ex_dir /\ nearest (files (nw2 t)) ex_dir ex_dir /\ nearest (files (nw3 t)) ex_dir ex_dir) /\
  load_definitions (nl_outside t) (below (definitions_of ex_dir) (files (nw1 t))) = Ret t /\
  (exists k, cmd_stage (nl_outside t) ex_dir (L "database") (1000, nw1 t) = (Ret (), (k, nw2 t))) /\
  (exists k, cmd_make (nl_outside t) ex_dir (L "database") (Some (L "first")) (1000, nw2 t) = (Ret (), (k, nw3 t))) /\
  (exists k, cmd_up (nl_outside t) ex_dir (L "database") None (1000, nw3 t) = (Ret (), (k, nw4 t))) /\
  stored (nl_history t (nw1 t)) (L "stage") (nl_stage t (nw1 t)) /\
  stored (nl_history t (nw2 t)) (L "stage") (nl_stage t (nw2 t)) /\
  (v_changes (nl_stage t (nw1 t)) = [] /\ v_previous (nl_stage t (nw1 t)) = Some (L "init") /\ v_changes (nl_stage t (nw2 t)) <> []) /\
  (calculate_snapshot (nl_history t (nw1 t)) (L "init") = Ret sv_init /\ calculate_snapshot (nl_history t (nw2 t)) (L "init") = Ret sv_init) /\
  files (nw2 t) !! (history_of ex_dir ++ [made_name t1 (Some (L "first")) ++ L ".yaml"]) = None.
Ltac nl_session :=
  split; [split_and!; config_there|]; split; [by_computation|];
  split; [eexists; unfold nw2; apply pair_eta; vm_compute; reflexivity|];
  split; [eexists; unfold nw3; apply pair_eta; vm_compute; reflexivity|];
  split; [eexists; unfold nw4; apply pair_eta; vm_compute; reflexivity|];
  split; [by_computation|]; split; [by_computation|];
  split; [split; [by_computation|split; [by_computation|vm_compute; discriminate]]|];
  split; [split; by_computation|vm_compute; reflexivity].
Lemma nl_keyed_session : nl_session nl_keyed.
Proof. nl_session. Qed.
Lemma nl_named_session : nl_session nl_named.
Proof. nl_session. Qed.

Lemma nl_ends t : nl_case t -> nl_session t ->
  exists db', servers (nw4 t) !! new_url = Some db' /\ (described t (pg_user db') <-> nulls_kept sv_init t).
Proof.
  intros (C1 & C2 & C3 & C4 & C5 & C6 & C7)
    ((N1 & N2 & N3) & Hl & [k1 H1] & [k2 H2] & [k3 H3] & S1 & S2 & (V1 & V2 & V3) & (R1 & R2) & Hn).
  destruct sw_table_found as [T1 T2].
  exact (cycle_fresh (nl_outside t) (fun sv => sv) (nl_reads_base t) (nl_codec t) pg_sem_obedient (nl_outside t) (nl_outside t) (nl_outside t)
    ex_dir (nw1 t) (Some (L "first")) ex_dir ex_dir ex_dir 1000 k1 (nw2 t) 1000 k2 (nw3 t) 1000 k3 (nw4 t) t
    (nl_stage t (nw1 t)) (nl_stage t (nw2 t)) pg0 sw_table (Row new_init 1) sv_init
    (eq_refl : schema_ident (nl_outside t) new_schema = Some new_schema) (nw1_workspace t) (same_reader_refl _) (same_machine_refl _)
    (same_machine_refl _) N1 N2 N3 Hl H1 S2 V3 Hn first_plain H2 H3 (lookup_singleton _ _) T1 T2 S1 V1 V2 R1 R2
    fresh_described init_spelled C2 C6 C7 C4 C5).
Qed.
Lemma ex_fresh :
  (nl_case nl_keyed /\ nl_session nl_keyed /\
   exists db', servers (nw4 nl_keyed) !! new_url = Some db' /\ described nl_keyed (pg_user db')) /\
  (nl_case nl_named /\ nl_session nl_named /\
   exists db', servers (nw4 nl_named) !! new_url = Some db' /\ ~ described nl_named (pg_user db')).
Proof.
  split.
  - split; [exact nl_keyed_case|]. split; [exact nl_keyed_session|].
    destruct (nl_ends nl_keyed nl_keyed_case nl_keyed_session) as (db' & H1 & H2). exists db'. split; [exact H1|].
    exact (proj2 H2 nl_keyed_nulls).
  - split; [exact nl_named_case|]. split; [exact nl_named_session|].
    destruct (nl_ends nl_named nl_named_case nl_named_session) as (db' & H1 & H2). exists db'. split; [exact H1|].
    intros K. exact (nl_named_nulls (proj1 H2 K)).
Qed.
Lemma refute_cycle : exists (o : outside server) (dir : path) w name k k1 w1 k2 k2' w2 k3 k3' w3 t db db',
  reads_base o /\ codec o /\ obedient (World.statement o) (fun sv => sv) /\ workspace o dir w /\
  load_definitions o (below (definitions_of dir) (files w)) = Ret t /\
  cmd_stage o dir (L "database") (k, w) = (Ret (), (k1, w1)) /\
  cmd_make o dir (L "database") name (k2, w1) = (Ret (), (k2', w2)) /\
  cmd_up o dir (L "database") None (k3, w2) = (Ret (), (k3', w3)) /\
  servers w !! new_url = Some db /\
  (exists d0, calculate_snapshot (history_at o (history_of dir) (files w)) (L "stage") = Ret d0 /\
     described d0 (pg_user db) /\ index_attributes_agree d0 t /\ new_sequences_unowned d0 t /\
     acceptable d0 (compare_diff (order_source o) (order_target o) d0 t)) /\
  servers w3 !! new_url = Some db' /\ ~ described t (pg_user db').
Proof.
  destruct ex_fresh as (_ & C & S & db' & E & H).
  destruct C as (_ & _ & _ & _ & C5 & C6 & C7), S as (_ & Hl & [k1 H1] & [k2 H2] & [k3 H3] & _).
  exists (nl_outside nl_named), ex_dir, (nw1 nl_named), (Some (L "first")), 1000, k1, (nw2 nl_named), 1000, k2, (nw3 nl_named), 1000, k3,
    (nw4 nl_named), nl_named, pg0, db'.
  split; [exact (nl_reads_base _)|]. split; [exact (nl_codec _)|]. split; [exact pg_sem_obedient|]. split; [exact (nw1_workspace _)|].
  split; [exact Hl|]. split; [exact H1|]. split; [exact H2|]. split; [exact H3|]. split; [exact (lookup_singleton _ _)|].
  split; [|split; [exact E|exact H]]. exists sv_init. split; [by_computation|]. split; [exact fresh_described|].
  split; [exact C6|]. split; [exact C7|exact C5].
Qed.
Lemma ex_cycle_nulls :
  v_changes (nl_stage nl_keyed (nw2 nl_keyed)) = nl_diff nl_keyed /\ v_previous (nl_stage nl_keyed (nw2 nl_keyed)) = Some (L "init") /\
  Forall well_spelled (nl_diff nl_keyed) /\ nl_case nl_keyed /\ nl_session nl_keyed.
Proof.
  split; [by_computation|]. split; [by_computation|].
  split; [by_computation|]. split; [exact nl_keyed_case|exact nl_keyed_session].
Qed.
Lemma ex_up_nulls :
  pg_ident podo = Some podo /\ obedient pg_sem (fun sv => sv) /\ reachable sv_d4 /\
  pg_up sv_d4 None pg0 = (Ret (), pg1) /\
  (SpecHistory.path sv_d4 (L "init") sv_names (L "20240102_093000-users") /\ Forall2 (stored sv_d4) sv_names sv_versions) /\
  calculate_snapshot sv_d4 (L "init") = Ret sv_init /\ described sv_init (pg_user pg0) /\
  Forall well_spelled (all_changes sv_versions) /\ faithful_but_null sv_init (all_changes sv_versions) /\
  acceptable sv_init (all_changes sv_versions).
Proof.
  pose proof ex_up_described as K. destruct K as (H1 & H2 & H3 & H4 & H5 & (H6 & _) & H7 & (_ & H8 & _ & H9)).
  split; [exact H1|]. split; [exact H2|]. split; [exact H3|]. split; [exact H4|]. split; [exact H5|]. split; [exact H6|].
  split; [exact H7|]. split; [exact H8|]. split; [|exact H9].
  apply faithful_weaker. exact (proj1 (proj2 (proj2 sv_changes))).
Qed.
