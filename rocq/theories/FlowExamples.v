(** Concrete projects, for the examples and the refutations about sequences of commands. *)
From Verif Require Import Base Text Types Changes SpecSnapshot Diff SpecDiff DecideSpec DiffOrder SnapshotExamples
  Load Node Yaml Ddl SpecDefinition DecideDefinition SaveLemmas Sql History
  SpecHistory HistoryLemmas HistoryProofs HistoryRun HistoryClaims HistoryExamples Dbh SpecDb DbLemmas DbRun DbClaims DbExamples
  Expand SpecExpand ExpandLemmas Project Definitions SpecDefinitions DefinitionsLemmas World SpecProject
  ProjectLemmas WorldLemmas ProjectProofs ProjectReady ProjectStatus SpecSession ProjectSession ProjectFlow ProjectClone
  Serde SpecSerde SerdeLemmas SerdeExamples DefinitionsExamples WorldExamples.
From Verif Require Catalog CatalogExamples.

Lemma same_reader_refl {S} (o : outside S) : same_reader o o.
Proof. split; [apply same_machine_refl|done]. Qed.
Lemma shape {A} (m : exec A) : match m with Ret _ => True | _ => False end -> exists a, m = Ret a.
Proof. destruct m; [by eexists|done..]. Qed.

(** ** Staging: the world before is [ws1], after [ws2] *)
Definition ws_load (w : world (list str)) : exec database :=
  load_definitions ex_outside (below (definitions_of ex_dir) (files w)).
Definition ws_status (w : world (list str)) : exec report :=
  (cmd_status ex_outside ex_dir (L "database") (1000, w)).1.
Definition ws_report (w : world (list str)) : option (nat * nat) :=
  match ws_status w with Ret rep => Some (length (staged rep), length (not_staged rep)) | _ => None end.

Lemma ws1_near : nearest (files ws1) ex_dir ex_dir /\ nearest (files ws2) ex_dir ex_dir /\
  nearest (files ws3) ex_dir ex_dir /\ nearest (files ws4) ex_dir ex_dir.
Proof. split_and!; config_there. Qed.
Lemma ws1_loads : exists t, ws_load ws1 = Ret t.
Proof. apply shape. vm_compute. exact I. Qed.
Lemma ws2_staged :
  (cmd_stage ex_outside ex_dir (L "database") (1000, ws1)).1 = Ret () /\
  ws_report ws1 = Some (0, 9) /\ ws_report ws2 = Some (9, 0).
Proof. split_and!; vm_compute; reflexivity. Qed.

(** ** A sequence with an owner: what is staged is still to be staged *)
Definition wo1 : world (list str) :=
  World (<[definitions_of ex_dir ++ [L "public.yaml"] := Bytes (L "owned")]> (files ws0)) (servers ws0).
Definition wo2 : world (list str) := (cmd_stage ex_outside ex_dir (L "database") (1000, wo1)).2.2.
Definition wo3 : world (list str) := (cmd_stage ex_outside ex_dir (L "database") (1000, wo2)).2.2.
Definition wo4 : world (list str) := (cmd_make ex_outside ex_dir (L "database") (Some (L "first")) (1000, wo2)).2.2.
Definition wo5 : world (list str) := (cmd_up ex_outside ex_dir (L "database") None (1000, wo4)).2.2.
Lemma wo1_workspace : workspace ex_outside ex_dir wo1.
Proof.
  unfold wo1. apply workspace_edit; [exact ws0_workspace|].
  intros q Hq. rewrite lookup_insert_ne; [reflexivity|]. intros <-. apply Hq. by eexists.
Qed.
Lemma status_of (w : world (list str)) a b :
  ws_report w = Some (a, b) -> exists rep, ws_status w = Ret rep /\ length (staged rep) = a /\ length (not_staged rep) = b.
Proof. unfold ws_report. destruct (ws_status w); try discriminate. intros [= <- <-]. by eexists. Qed.

Lemma wo1_loads : exists t, ws_load wo1 = Ret t.
Proof. apply shape. vm_compute. exact I. Qed.
Lemma refute_stage_status :
  exists (o : outside (list str)) dir w k k1 w1 t rep,
    workspace o dir w /\ nearest (files w) dir dir /\
    load_definitions o (below (definitions_of dir) (files w)) = Ret t /\
    cmd_stage o dir (L "database") (k, w) = (Ret (), (k1, w1)) /\
    (cmd_status o dir (L "database") (k, w1)).1 = Ret rep /\ not_staged rep <> [].
Proof.
  assert (ws_report wo2 = Some (2, 2)) as (rep & Hr & _ & Hn)%status_of by (vm_compute; reflexivity).
  destruct wo1_loads as [t Ht].
  eexists ex_outside, ex_dir, wo1, 1000, _, wo2, t, rep.
  split; [exact wo1_workspace|]. split; [config_there|]. split; [exact Ht|].
  split; [unfold wo2; apply pair_eta; vm_compute; reflexivity|]. split; [exact Hr|].
  intros E. rewrite E in Hn. discriminate Hn.
Qed.
(** Staged twice, the same changes are in the stage twice. *)
Lemma refute_stage_again :
  exists (o : outside (list str)) dir w k k1 w1 k2 w2 t,
    workspace o dir w /\ nearest (files w) dir dir /\
    load_definitions o (below (definitions_of dir) (files w)) = Ret t /\
    cmd_stage o dir (L "database") (k, w) = (Ret (), (k1, w1)) /\
    cmd_stage o dir (L "database") (k, w1) = (Ret (), (k2, w2)) /\ w2 <> w1.
Proof.
  destruct wo1_loads as [t Ht].
  eexists ex_outside, ex_dir, wo1, 1000, _, wo2, _, wo3, t.
  split; [exact wo1_workspace|]. split; [config_there|]. split; [exact Ht|].
  split; [unfold wo2; apply pair_eta; vm_compute; reflexivity|].
  split; [unfold wo3; apply pair_eta; vm_compute; reflexivity|].
  intros E. assert (ws_report wo3 = Some (4, 2)) as H by (vm_compute; reflexivity). rewrite E in H. revert H.
  vm_compute. discriminate.
Qed.
(** Nor does it end when the version is made and applied. *)
Lemma refute_cycle :
  exists (o : outside (list str)) dir w k k1 w1 k2 w2 k3 w3 t rep,
    workspace o dir w /\ nearest (files w) dir dir /\
    load_definitions o (below (definitions_of dir) (files w)) = Ret t /\
    cmd_stage o dir (L "database") (k, w) = (Ret (), (k1, w1)) /\
    cmd_make o dir (L "database") (Some (L "first")) (k, w1) = (Ret (), (k2, w2)) /\
    cmd_up o dir (L "database") None (k, w2) = (Ret (), (k3, w3)) /\
    (cmd_status o dir (L "database") (k, w3)).1 = Ret rep /\ not_staged rep <> [].
Proof.
  assert (ws_report wo5 = Some (0, 2)) as (rep & Hr & _ & Hn)%status_of by (vm_compute; reflexivity).
  destruct wo1_loads as [t Ht].
  eexists ex_outside, ex_dir, wo1, 1000, _, wo2, _, wo4, _, wo5, t, rep.
  split; [exact wo1_workspace|]. split; [config_there|]. split; [exact Ht|].
  split; [unfold wo2; apply pair_eta; vm_compute; reflexivity|].
  split; [unfold wo4; apply pair_eta; vm_compute; reflexivity|].
  split; [unfold wo5; apply pair_eta; vm_compute; reflexivity|].
  split; [exact Hr|]. intros E. rewrite E in Hn. discriminate Hn.
Qed.

(** ** A full cycle *)
Definition ws_stage (w : world (list str)) : option version :=
  match history_at ex_outside (history_of ex_dir) (files w) !! L "stage.yaml" with Some (Document v) => Some v | _ => None end.
Definition ws_on (w : world (list str)) : option str :=
  match ws_status w with Ret rep => match on_version rep with Ret v => Some v | _ => None end | _ => None end.
Lemma stage_stored (w : world (list str)) v :
  ws_stage w = Some v -> stored (history_at ex_outside (history_of ex_dir) (files w)) (L "stage") v.
Proof.
  unfold ws_stage. intros H. split; [by_computation|]. change (L "stage" ++ L ".yaml") with (L "stage.yaml").
  destruct (_ !! L "stage.yaml") as [[]|]; try discriminate. congruence.
Qed.
Lemma stage_shape (w : world (list str)) :
  match ws_stage w with Some v => v_changes v <> [] | None => False end ->
  exists stg, stored (history_at ex_outside (history_of ex_dir) (files w)) (L "stage") stg /\ v_changes stg <> [].
Proof.
  destruct (ws_stage w) as [v|] eqn:E; [|done]. intros H. exists v. split; [by apply stage_stored|done].
Qed.
Lemma ex_cycle :
  workspace ex_outside ex_dir ws1 /\ schema_ident ex_outside new_schema = Some new_schema /\
  nearest (files ws1) ex_dir ex_dir /\ nearest (files ws2) ex_dir ex_dir /\
  nearest (files ws3) ex_dir ex_dir /\ nearest (files ws4) ex_dir ex_dir /\
  (exists t, load_definitions ex_outside (below (definitions_of ex_dir) (files ws1)) = Ret t) /\
  (exists k1, cmd_stage ex_outside ex_dir (L "database") (1000, ws1) = (Ret (), (k1, ws2))) /\
  (exists stg, stored (history_at ex_outside (history_of ex_dir) (files ws2)) (L "stage") stg /\ v_changes stg <> []) /\
  files ws2 !! (history_of ex_dir ++ [made_name t1 (Some (L "first")) ++ L ".yaml"]) = None /\
  plain_name (made_name t1 (Some (L "first"))) /\
  (exists k2, cmd_make ex_outside ex_dir (L "database") (Some (L "first")) (1000, ws2) = (Ret (), (k2, ws3))) /\
  (exists k3, cmd_up ex_outside ex_dir (L "database") None (1000, ws3) = (Ret (), (k3, ws4))) /\
  ws_report ws4 = Some (0, 0) /\ ws_on ws4 = Some (L "20240101_120000-first").
Proof.
  split; [exact ws1_workspace|]. split; [vm_compute; reflexivity|]. destruct ws1_near as (H1 & H2 & H3 & H4).
  split_and!; try done.
  - exact ws1_loads.
  - eexists. unfold ws2. apply pair_eta. vm_compute. reflexivity.
  - assert (match ws_stage ws2 with Some v => v_changes v <> [] | None => False end) as H by (vm_compute; discriminate).
    exact (stage_shape ws2 H).
  - exact first_plain.
  - eexists. unfold ws3. apply pair_eta. vm_compute. reflexivity.
  - eexists. unfold ws4. apply pair_eta. vm_compute. reflexivity.
Qed.

(** ** Cloning a small database: a table, a sequence with some increment, an index *)
Definition pub_catalogue (increment : Z) : Catalog.catalogue := Catalog.Catalogue
  [Catalog.Namespace 1 (L "pg_catalog") false; Catalog.Namespace 10 (L "public") false]
  [Catalog.Class 100 (L "users") 10 Catalog.KTable 0 2 true true true;
   Catalog.Class 102 (L "users_id_seq") 10 Catalog.KSequence 0 0 true true true;
   Catalog.Class 104 (L "users_name") 10 Catalog.KIndex 0 403 true true true]
  [Catalog.Attribute 100 1 (L "id") 20 None true false false;
   Catalog.Attribute 100 2 (L "name") 25 None false false false]
  [Catalog.Attrdef 100 1 (L "nextval('users_id_seq')")]
  [Catalog.Pgtype 20 (L "int8") 1 0 false false (L "bigint"); Catalog.Pgtype 25 (L "text") 1 0 false false (L "text")]
  [] [Catalog.Pgindex 104 100 false 1 [2]%Z [0]%Z None]
  [Catalog.AccessMethod 2 (L "heap"); Catalog.AccessMethod 403 (L "btree")]
  [Catalog.Pgsequence 102 20 increment 1 1000 1 1 false]
  [Catalog.Depend Catalog.PgClass 102 0 Catalog.PgClass 100 1 false] [] [].
Definition pub_outside (increment : Z) : outside (list str) :=
  Outside _ ex_setting sorted_listing (version_of_file ex_parse) (file_of_version ex_print)
    ex_documents any_order table_first t1 log_sem pg_ident (fun _ => pub_catalogue increment) CatalogExamples.ex_planner.
Definition pub_db (increment : Z) : database :=
  match introspect (pub_outside increment) empty_db with Ret d => d | _ => database_new end.
Lemma pub_introspected increment :
  match introspect (pub_outside increment) empty_db with Ret _ => True | _ => False end ->
  introspect (pub_outside increment) empty_db = Ret (pub_db increment).
Proof. unfold pub_db. by destruct (introspect _ _). Qed.
Lemma pub_same increment : same_machine ex_outside (pub_outside increment).
Proof. by repeat split. Qed.
Lemma ws0_near : nearest (files ws0) ex_dir ex_dir.
Proof. config_there. Qed.
Lemma ws0_profile increment :
  profile_at (setting_of (pub_outside increment)) (files ws0) ex_dir (L "database") (base_profile ex_dir).
Proof.
  exact (workspace_profile ex_outside ex_reads_base ex_codec (pub_outside increment) ex_dir ws0 ex_dir
    ws0_workspace (pub_same increment) ws0_near).
Qed.
Lemma ws0_definitions :
  files ws0 !! p_definitions (base_profile ex_dir) = Some Directory /\
  files ws0 !! (p_definitions (base_profile ex_dir) ++ [L "public.yaml"]) <> Some Directory /\
  (forall q text, definition_at (below (p_definitions (base_profile ex_dir)) (files ws0)) q text -> q = [L "public.yaml"]).
Proof.
  split; [vm_compute; reflexivity|]. split; [vm_compute; discriminate|].
  intros q text (H & _).
  assert (map_Forall (fun q n => n = Directory \/ q = [L "public.yaml"])
    (below (p_definitions (base_profile ex_dir)) (files ws0))) as Hall.
  { apply (bool_decide_unpack _). vm_compute. exact I. }
  by destruct (Hall _ _ H) as [?|?].
Qed.
Lemma ex_clone :
  reads_back (documents_of (pub_outside 1)) /\
  profile_at (setting_of (pub_outside 1)) (files ws0) ex_dir (L "database") (base_profile ex_dir) /\
  files ws0 !! p_definitions (base_profile ex_dir) = Some Directory /\
  files ws0 !! (p_definitions (base_profile ex_dir) ++ [L "public.yaml"]) <> Some Directory /\
  (forall q text, definition_at (below (p_definitions (base_profile ex_dir)) (files ws0)) q text -> q = [L "public.yaml"]) /\
  servers ws0 !! p_database_url (base_profile ex_dir) = Some empty_db /\
  introspect (pub_outside 1) empty_db = Ret (pub_db 1) /\ machine_db (pub_db 1) /\ savable (pub_db 1) /\
  size (db_schemas (pub_db 1)) = 1.
Proof.
  split; [exact ex_reads_back|]. split; [exact (ws0_profile 1)|]. destruct ws0_definitions as (H1 & H2 & H3).
  split; [exact H1|]. split; [exact H2|]. split; [exact H3|]. split; [vm_compute; reflexivity|].
  split; [apply pub_introspected; vm_compute; exact I|].
  split; [apply (bool_decide_unpack _); vm_compute; exact I|].
  split; [apply (bool_decide_unpack _); vm_compute; exact I|]. vm_compute. reflexivity.
Qed.
Lemma unloadable d :
  match save_document any_order d with
  | Done m => match load_document any_order m with Done _ => False | _ => True end
  | _ => False
  end -> exists m, save_document any_order d = Done m /\ forall t, load_document any_order m <> Done t.
Proof.
  destruct (save_document any_order d) as [m|e|]; try done. intros Hs. exists m. split; [done|].
  intros t E. by rewrite E in Hs.
Qed.
(** A sequence that counts in twos: the clone cannot be loaded. *)
Lemma refute_clone :
  exists (o : outside (list str)) cwd p k w db d w',
    reads_back (documents_of o) /\ profile_at (setting_of o) (files w) cwd (L "database") p /\
    files w !! p_definitions p = Some Directory /\
    (forall q text, definition_at (below (p_definitions p) (files w)) q text -> q = [L "public.yaml"]) /\
    servers w !! p_database_url p = Some db /\ introspect o db = Ret d /\ machine_db d /\
    cmd_clone o cwd (L "database") (2 + k, w) = (Ret (), (k, w')) /\
    forall t, load_definitions o (below (p_definitions p) (files w')) <> Ret t.
Proof.
  assert (introspect (pub_outside 2) empty_db = Ret (pub_db 2)) as Hi by (apply pub_introspected; vm_compute; exact I).
  pose proof (ws0_profile 2) as Hp. destruct ws0_definitions as (H1 & H2 & H3).
  destruct (unloadable (pub_db 2)) as (m & Hm & Hl); [vm_compute; exact I|].
  destruct (clone_loads (pub_outside 2) ex_dir (L "database") _ _ 0 ws0 empty_db (pub_db 2) m ex_reads_back Hp Hp H1 H2 H3)
    as (w' & Hrun & _ & _ & Hload); [vm_compute; reflexivity|exact Hi|exact Hm|].
  exists (pub_outside 2), ex_dir, (base_profile ex_dir), 0, ws0, empty_db, (pub_db 2), w'.
  split; [exact ex_reads_back|]. split; [exact Hp|]. split; [exact H1|]. split; [exact H3|].
  split; [vm_compute; reflexivity|]. split; [exact Hi|].
  split; [apply (bool_decide_unpack _); vm_compute; exact I|]. split; [exact Hrun|].
  intros t E. apply (Hl t), Hload, E.
Qed.
