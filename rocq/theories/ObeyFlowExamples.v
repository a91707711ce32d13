(** A project whose database does what it is told: stage, make and up, from definitions to tables. *)
From Verif Require Import Base Text Types Changes SpecSnapshot SpecMerge Diff SpecDiff DecideSpec DiffOrder SnapshotExamples
  Load Node Yaml Ddl SpecDefinition DecideDefinition SaveLemmas Sql SpecSql History
  SpecHistory HistoryLemmas HistoryProofs HistoryRun HistoryClaims HistoryExamples Dbh SpecDb DbLemmas DbRun DbClaims DbExamples
  Expand SpecExpand ExpandLemmas Project Definitions SpecDefinitions DefinitionsLemmas World SpecProject
  ProjectLemmas WorldLemmas ProjectProofs ProjectReady ProjectStatus SpecSession ProjectSession ProjectFlow ProjectClone
  Serde SpecSerde SerdeLemmas SerdeExamples DefinitionsExamples WorldExamples FlowExamples
  SpecLex SpecStatement SpecServer SpecAccept SpecObey SayLemmas ServerLemmas ObeyLemmas ObeyFlow DecideServer ServerExamples.
From Verif Require CatalogExamples.

Definition sv_read (text : str) : option (list (yaml * yaml)) :=
  if decide (text = L "first") then Some (document_of sv_first) else ex_parse text.
Definition sv_documents : documents.
Proof. by refine (Documents sv_read ex_print map_to_list _ (fun _ => any_order) any_order). Defined.
Definition sv_outside : outside server :=
  Outside _ ex_setting sorted_listing (version_of_file ex_parse) (file_of_version ex_print)
    sv_documents any_order table_first t1 pg_sem pg_ident (fun _ => CatalogExamples.ex_catalogue) CatalogExamples.ex_planner.
Lemma sv_reads_base : reads_base sv_outside.
Proof. apply ex_parse_print. Qed.
Lemma sv_codec : codec sv_outside.
Proof. split; [|reflexivity]. intros v. apply file_back, ex_parse_print. Qed.

Definition sv_start : world server := World (dirs [[L "work"]]) {[ new_url := pg0 ]}.
Definition sw0 : world server := World (cmd_init sv_outside ex_dir (1000, files sv_start)).2.2 (servers sv_start).
Definition sw1 : world server :=
  World (<[definitions_of ex_dir ++ [L "public.yaml"] := Bytes (L "first")]> (files sw0)) (servers sw0).
Definition sw2 : world server := (cmd_stage sv_outside ex_dir (L "database") (1000, sw1)).2.2.
Definition sw3 : world server := (cmd_make sv_outside ex_dir (L "database") (Some (L "first")) (1000, sw2)).2.2.
Definition sw4 : world server := (cmd_up sv_outside ex_dir (L "database") None (1000, sw3)).2.2.
Lemma sw0_workspace : workspace sv_outside ex_dir sw0.
Proof.
  unfold sw0. eapply (workspace_init _ _ sv_outside 1000 sv_start _ _ pg0).
  - apply same_machine_refl.
  - intros dir [x Hx] Hd. destruct dir as [|a [|]]; [done| |discriminate Hx].
    injection Hx as <- _. vm_compute. reflexivity.
  - intros dir' [[x Hx] [n Hn]]. destruct dir' as [|a [|]]; [| |discriminate Hx].
    + revert Hn. vm_compute. discriminate.
    + change (files sv_start) with (files ex_start) in Hn. rewrite start_none in Hn; [discriminate|]. right. discriminate.
  - intros q [x ->]. apply start_none. left. eexists. split; [reflexivity|discriminate].
  - intros q [x ->]. apply start_none. left. eexists. split; [reflexivity|discriminate].
  - apply lookup_singleton.
  - apply lookup_empty.
  - apply pair_eta. vm_compute. reflexivity.
Qed.
Lemma sw1_workspace : workspace sv_outside ex_dir sw1.
Proof.
  unfold sw1. apply workspace_edit; [exact sw0_workspace|].
  intros q Hq. rewrite lookup_insert_ne; [reflexivity|]. intros <-. apply Hq. by eexists.
Qed.
Lemma sw_near : nearest (files sw1) ex_dir ex_dir /\ nearest (files sw2) ex_dir ex_dir /\ nearest (files sw3) ex_dir ex_dir.
Proof. split_and!; config_there. Qed.
Lemma sw_loads : load_definitions sv_outside (below (definitions_of ex_dir) (files sw1)) = Ret sv_first.
Proof. by_computation. Qed.
Lemma sw_staged : exists k, cmd_stage sv_outside ex_dir (L "database") (1000, sw1) = (Ret (), (k, sw2)).
Proof. eexists. unfold sw2. apply pair_eta. vm_compute. reflexivity. Qed.
Lemma sw_made : exists k, cmd_make sv_outside ex_dir (L "database") (Some (L "first")) (1000, sw2) = (Ret (), (k, sw3)).
Proof. eexists. unfold sw3. apply pair_eta. vm_compute. reflexivity. Qed.
Lemma sw_went_up : exists k, cmd_up sv_outside ex_dir (L "database") None (1000, sw3) = (Ret (), (k, sw4)).
Proof. eexists. unfold sw4. apply pair_eta. vm_compute. reflexivity. Qed.
Definition sw_history (w : world server) : hdir := history_at sv_outside (history_of ex_dir) (files w).
Definition sw_stage : version := named_in (sw_history sw2) (L "stage").
Lemma sw_stage_stored : stored (sw_history sw2) (L "stage") sw_stage.
Proof. by_computation. Qed.
Lemma sw_first : v_previous sw_stage = Some (L "init") /\ v_changes sw_stage = first_changes /\
  calculate_snapshot (sw_history sw2) (L "init") = Ret sv_init.
Proof. split_and!; by_computation. Qed.
Lemma sw_fresh_name : files sw2 !! (history_of ex_dir ++ [made_name t1 (Some (L "first")) ++ L ".yaml"]) = None.
Proof. vm_compute. reflexivity. Qed.
Lemma first_ok : Forall well_spelled first_changes /\ faithful sv_init first_changes.
Proof. split; by_computation. Qed.
Lemma first_acceptable : acceptable sv_init first_changes.
Proof.
  apply (shown_acceptable _ _ fresh);
    [exact init_wf|exact fresh_described|exact (proj1 first_ok)| |exact (proj2 first_ok)|]; vm_compute; exact I.
Qed.
Lemma sw_first_ok : v_changes sw_stage <> [] /\ Forall well_spelled (v_changes sw_stage) /\ faithful sv_init (v_changes sw_stage) /\
  acceptable sv_init (v_changes sw_stage).
Proof.
  destruct sw_first as (_ & E & _). rewrite E. split; [vm_compute; discriminate|].
  split; [exact (proj1 first_ok)|]. split; [exact (proj2 first_ok)|exact first_acceptable].
Qed.
Definition sw_db : pg server := match servers sw4 !! new_url with Some db => db | None => pg0 end.
Definition sw_table : vtable := VTable [Row new_init 1] 2.
Lemma sw_table_found : finds pg0 new_schema sw_table /\ newest (t_rows sw_table) (Row new_init 1).
Proof. split; [by right|]. split; [by left|]. intros r' Hr'. apply elem_of_list_singleton in Hr' as ->. done. Qed.
Lemma sw_described : servers sw4 !! new_url = Some sw_db /\ described sv_first (pg_user sw_db).
Proof.
  destruct sw_near as (N1 & N2 & N3). destruct sw_staged as [k1 H1], sw_made as [k2 H2], sw_went_up as [k3 H3].
  destruct sw_first as (F1 & _ & F3), sw_first_ok as (O1 & O2 & O3 & O4), sw_table_found as [T1 T2].
  pose proof (cycle_described sv_outside (fun sv => sv) sv_reads_base sv_codec pg_sem_obedient sv_outside sv_outside sv_outside
    ex_dir sw1 (Some (L "first")) ex_dir ex_dir ex_dir 1000 k1 sw2 1000 k2 sw3 1000 k3 sw4 sv_first sw_stage pg0 sw_table
    (Row new_init 1) sv_init (eq_refl : schema_ident sv_outside new_schema = Some new_schema) sw1_workspace (same_reader_refl _) (same_machine_refl _) (same_machine_refl _)
    N1 N2 N3 sw_loads H1 sw_stage_stored O1 sw_fresh_name first_plain H2 H3 (lookup_singleton _ _) T1 T2 F1 F3
    fresh_described O2 O3 O4) as K. destruct K as (db' & source & Hdb & Hsrc & Hd & _).
  clear H1 H2 H3 O1 O2 O3 O4. unfold sw_db. rewrite Hdb. split; [done|].
  assert (source = sv_init) as ->.
  { assert (calculate_snapshot (sw_history sw1) (L "stage") = Ret sv_init) as K by by_computation.
    unfold sw_history in K. rewrite K in Hsrc. by injection Hsrc as <-. }
  assert (expected_db sv_init sv_first = sv_first) as E by by_computation. by rewrite E in Hd.
Qed.
Lemma ex_flow_described :
  workspace sv_outside ex_dir sw1 /\ obedient (World.statement sv_outside) (fun sv => sv) /\
  load_definitions sv_outside (below (definitions_of ex_dir) (files sw1)) = Ret sv_first /\
  (exists k, cmd_stage sv_outside ex_dir (L "database") (1000, sw1) = (Ret (), (k, sw2))) /\
  (exists k, cmd_make sv_outside ex_dir (L "database") (Some (L "first")) (1000, sw2) = (Ret (), (k, sw3))) /\
  (exists k, cmd_up sv_outside ex_dir (L "database") None (1000, sw3) = (Ret (), (k, sw4))) /\
  servers sw1 !! new_url = Some pg0 /\ described sv_init (pg_user pg0) /\
  (v_changes sw_stage <> [] /\ Forall well_spelled (v_changes sw_stage) /\ faithful sv_init (v_changes sw_stage) /\
   acceptable sv_init (v_changes sw_stage)) /\
  (servers sw4 !! new_url = Some sw_db /\ described sv_first (pg_user sw_db)).
Proof.
  split; [exact sw1_workspace|]. split; [exact pg_sem_obedient|]. split; [exact sw_loads|]. split; [exact sw_staged|].
  split; [exact sw_made|]. split; [exact sw_went_up|]. split; [apply lookup_singleton|]. split; [exact fresh_described|].
  split; [exact sw_first_ok|exact sw_described].
Qed.
