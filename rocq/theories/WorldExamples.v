(** Concrete projects, for the examples and the refutations about projects and commands. *)
From Verif Require Import Base Text Types Changes SpecSnapshot Diff DecideSpec DiffOrder SnapshotExamples Sql History SpecHistory HistoryLemmas HistoryProofs HistoryRun
  HistoryClaims HistoryExamples Dbh SpecDb DbLemmas DbRun DbClaims DbExamples Expand SpecExpand ExpandLemmas Project
  Definitions SpecDefinitions DefinitionsLemmas World SpecProject
  ProjectLemmas WorldLemmas ProjectProofs ProjectReady ProjectStatus SpecSession ProjectSession Serde SpecSerde SerdeLemmas SerdeExamples DefinitionsExamples.
From Verif Require CatalogExamples.

Global Instance yaml_profile_eq_dec : EqDecision yaml_profile.
Proof. solve_decision. Defined.
Global Instance yaml_profile_countable : Countable yaml_profile.
Proof.
  refine (inj_countable' (fun p => (y_database_url p, y_history p, y_definitions p, y_metadata_schema p))
    (fun '(a, b, c, d) => YamlProfile a b c d) _). by intros [].
Defined.

Definition ex_env : environment := fun n =>
  if decide (n = L "DB") then Some (Unicode (L "postgresql://one")) else
  if decide (n = L "SCHEMA") then Some (Unicode (L "meta")) else
  if decide (n = L "LATIN1") then Some OtherBytes else None.
Definition ex_setting : setting.
Proof. by refine (Setting (fun _ => false) ex_env map_to_list _ ex_parse ex_print). Defined.

(** Every database has the catalogue of CatalogExamples.v. *)
Definition ex_outside : outside (list str) :=
  Outside _ ex_setting sorted_listing (version_of_file ex_parse) (file_of_version ex_print)
    ex_documents any_order table_first t1 log_sem pg_ident (fun _ => CatalogExamples.ex_catalogue) CatalogExamples.ex_planner.

Lemma ex_reads_base : reads_base ex_outside.
Proof. apply ex_parse_print. Qed.
Lemma ex_codec : codec ex_outside.
Proof. split; [|reflexivity]. intros v. apply file_back, ex_parse_print. Qed.

(** ** Two profiles *)
Definition ex_yaml : yaml_project :=
  {[ L "database" := YamlProfile (L "$DB") (L "database/history") (L "database/definitions") (L "podo");
     L "other" := YamlProfile (L "postgresql://two") (L "other/history") (L "other/definitions") (L "podo") ]}.
Definition ex_cwd : path := [L "work"; L "sub"].
Definition dirs (l : list path) : filesystem := list_to_map ((fun p => (p, Directory)) <$> l).
Definition ex_tree : filesystem :=
  <[config [L "work"] := Bytes (ex_print ex_yaml)]>
  (dirs [[L "work"]; [L "work"; L "sub"]; [L "work"; L "database"]; [L "work"; L "other"];
         [L "work"; L "database"; L "history"]; [L "work"; L "database"; L "definitions"];
         [L "work"; L "other"; L "history"]; [L "work"; L "other"; L "definitions"]]).
Definition ex_profile (name url : string) : profile :=
  Profile (L name) (L url) [L "work"; L name; L "history"] [L "work"; L name; L "definitions"] (L "podo").
Definition ex_default : profile := ex_profile "database" "postgresql://one".
Definition ex_other : profile := ex_profile "other" "postgresql://two".
(** The histories of the two profiles. *)
Definition ex_files (default other : hdir) : filesystem :=
  store ex_outside (p_history ex_other) ∅ other (store ex_outside (p_history ex_default) ∅ default ex_tree).
Definition ex_servers : gmap str (pg (list str)) :=
  {[ L "postgresql://one" := empty_db; L "postgresql://two" := empty_db ]}.
Definition ex_world (default other : hdir) : world (list str) := World (ex_files default other) ex_servers.

Lemma check_profile (fs : filesystem) (cwd dir : path) (y : yaml_project) yp name p :
  fs !! config dir = Some (Bytes (ex_print y)) -> y !! name = Some yp ->
  dir `prefix_of` cwd ->
  (forall dir', dir' `prefix_of` cwd -> is_Some (fs !! config dir') -> dir' `prefix_of` dir) ->
  p = load_profile ex_setting dir (name, yp) ->
  profile_at ex_setting fs cwd name p.
Proof.
  intros Hc Hy Hd Hn ->. exists dir, y, yp.
  split; [|split; [exact Hy|repeat split; reflexivity]].
  split; [split; [split; [exact Hd|by eexists]|]|].
  - intros dir' [H1 H2]. by apply Hn.
  - eexists. split; [exact Hc|]. apply ex_parse_print.
Qed.

Lemma ex_outer (fs : filesystem) :
  (forall f, fs !! [f] = ex_tree !! [f]) ->
  (forall f, fs !! [L "work"; f] = ex_tree !! [L "work"; f]) ->
  (forall f, fs !! [L "work"; L "sub"; f] = ex_tree !! [L "work"; L "sub"; f]) ->
  profile_at ex_setting fs ex_cwd (L "database") ex_default /\ profile_at ex_setting fs ex_cwd (L "other") ex_other.
Proof.
  intros H0 H1 H2.
  assert (Hc : fs !! config [L "work"] = Some (Bytes (ex_print ex_yaml))).
  { unfold config. cbn [app]. rewrite H1. unfold ex_tree, config. cbn [app]. apply lookup_insert. }
  assert (Hn : forall dir', dir' `prefix_of` ex_cwd -> is_Some (fs !! config dir') -> dir' `prefix_of` [L "work"]).
  { intros dir' [x Hx] [n Hs]. destruct dir' as [|a [|b [|]]].
    - apply prefix_nil.
    - injection Hx as <- _. reflexivity.
    - injection Hx as <- <- _. unfold config in Hs. cbn [app] in Hs. rewrite H2 in Hs. exfalso. revert Hs.
      assert (E : ex_tree !! [L "work"; L "sub"; L ".podo.yaml"] = None) by (vm_compute; reflexivity).
      rewrite E. discriminate.
    - discriminate Hx. }
  split; eapply check_profile; [exact Hc|vm_compute; reflexivity|by exists [L "sub"]|exact Hn|vm_compute; reflexivity|
    exact Hc|vm_compute; reflexivity|by exists [L "sub"]|exact Hn|vm_compute; reflexivity].
Qed.
Lemma ex_short (default other : hdir) (q : path) :
  length q <> 4 -> ex_files default other !! q = ex_tree !! q.
Proof.
  intros H. unfold ex_files.
  rewrite !lookup_store_out; [done|..]; intros f ->; by apply H.
Qed.
Lemma ex_profiles default other :
  profile_at ex_setting (ex_files default other) ex_cwd (L "database") ex_default /\
  profile_at ex_setting (ex_files default other) ex_cwd (L "other") ex_other.
Proof. apply ex_outer; intros f; by apply ex_short. Qed.

(** The files of the profile [other] do not depend on the history of the default profile. *)
Lemma ex_same_other default default' other :
  same_at (p_history ex_other) (ex_files default other) (ex_files default' other) /\
  same_at (p_definitions ex_other) (ex_files default other) (ex_files default' other).
Proof.
  split; intros q [x ->]; unfold ex_files.
  - destruct (decide (length x = 1)) as [Hx|Hx].
    + destruct x as [|f [|]]; try discriminate Hx. rewrite !lookup_store_in.
      rewrite !(lookup_store_out _ (p_history ex_default)); [done|..]; intros g; discriminate.
    + rewrite !lookup_store_out; [done|..]; intros g E; apply (f_equal length) in E; rewrite app_length in E; cbn in E; lia.
  - rewrite !lookup_store_out; [done|..]; intros g; discriminate.
Qed.
Lemma history_stored (p : path) (d : hdir) (fs : filesystem) :
  (forall f, fs !! (p ++ [f]) = None) -> history_at ex_outside p (store ex_outside p ∅ d fs) = d.
Proof.
  intros Hn. apply map_eq. intros f. rewrite lookup_history_at, lookup_store_in, lookup_empty.
  destruct (d !! f) as [e|] eqn:E.
  - destruct (decide (None = Some e)); [discriminate|]. destruct e; try reflexivity.
    unfold node_of, entry_of. cbn [fmap option_fmap option_map]. by rewrite (proj1 ex_codec).
  - by rewrite Hn.
Qed.
Lemma ex_tree_short q : length q = 4 -> ex_tree !! q = None.
Proof.
  assert (Hall : map_Forall (fun q _ => length q <> 4) ex_tree).
  { apply (bool_decide_unpack _). vm_compute. exact I. }
  intros Hq. destruct (ex_tree !! q) as [n|] eqn:Hn; [|reflexivity].
  destruct (Hall _ _ Hn Hq).
Qed.
Lemma ex_history_other default other : history_at ex_outside (p_history ex_other) (ex_files default other) = other.
Proof.
  apply history_stored. intros f. rewrite lookup_store_out by (intros g; discriminate). by apply ex_tree_short.
Qed.
Lemma ex_history_default default other : history_at ex_outside (p_history ex_default) (ex_files default other) = default.
Proof.
  rewrite <-(history_stored (p_history ex_default) default ex_tree) at 2 by (intros f; by apply ex_tree_short).
  apply map_eq. intros f. rewrite !lookup_history_at. unfold ex_files.
  by rewrite (lookup_store_out _ (p_history ex_other)) by (intros g; discriminate).
Qed.

(** ** C51: [up] with a profile uses the history of the default profile *)

Definition log_of (url : str) (w : world (list str)) : option (list str) := pg_user <$> servers w !! url.
Lemma refute_up_profile :
  exists (o : outside (list str)) cwd name p k w w2,
    profile_at (setting_of o) (files w) cwd name p /\ profile_at (setting_of o) (files w2) cwd name p /\
    same_at (p_history p) (files w) (files w2) /\ same_at (p_definitions p) (files w) (files w2) /\
    servers w = servers w2 /\
    (cmd_up o cwd name None (k, w)).1 = Ret () /\ (cmd_up o cwd name None (k, w2)).1 = Ret () /\
    servers (cmd_up o cwd name None (k, w)).2.2 !! p_database_url p <>
    servers (cmd_up o cwd name None (k, w2)).2.2 !! p_database_url p.
Proof.
  exists ex_outside, ex_cwd, (L "other"), ex_other, 1000, (ex_world ex_d5 ex_d0), (ex_world ex_d0 ex_d0).
  split; [apply ex_profiles|]. split; [apply ex_profiles|].
  split; [apply (proj1 (ex_same_other ex_d5 ex_d0 ex_d0))|]. split; [apply (proj2 (ex_same_other ex_d5 ex_d0 ex_d0))|].
  split; [reflexivity|]. split; [vm_compute; reflexivity|]. split; [vm_compute; reflexivity|].
  intros E. apply (f_equal (fun x => length <$> (pg_user <$> x))) in E. revert E. vm_compute. discriminate.
Qed.
Lemma refute_status_profile :
  exists (o : outside (list str)) cwd name p k w w2 rep rep2,
    profile_at (setting_of o) (files w) cwd name p /\ profile_at (setting_of o) (files w2) cwd name p /\
    same_at (p_history p) (files w) (files w2) /\ same_at (p_definitions p) (files w) (files w2) /\
    servers w = servers w2 /\
    (cmd_status o cwd name (k, w)).1 = Ret rep /\ (cmd_status o cwd name (k, w2)).1 = Ret rep2 /\
    staged rep <> staged rep2.
Proof.
  exists ex_outside, ex_cwd, (L "other"), ex_other, 1000, (ex_world ex_d1 ex_d0), (ex_world ex_d0 ex_d0).
  eexists _, _.
  split; [apply ex_profiles|]. split; [apply ex_profiles|].
  split; [apply (proj1 (ex_same_other ex_d1 ex_d0 ex_d0))|]. split; [apply (proj2 (ex_same_other ex_d1 ex_d0 ex_d0))|].
  split; [reflexivity|]. split; [vm_compute; reflexivity|]. split; [vm_compute; reflexivity|]. vm_compute. discriminate.
Qed.

(** A project without a profile called database. *)
Definition lone_yaml : yaml_project :=
  {[ L "other" := YamlProfile (L "postgresql://two") (L "other/history") (L "other/definitions") (L "podo") ]}.
Definition lone_files : filesystem :=
  store ex_outside (p_history ex_other) ∅ ex_d0 (<[config [L "work"] := Bytes (ex_print lone_yaml)]> ex_tree).
Lemma refute_up_needs_default :
  exists (o : outside (list str)) cwd name p k w,
    profile_at (setting_of o) (files w) cwd name p /\
    is_directory (files w) (p_history p) = true /\ reachable (history_at o (p_history p) (files w)) /\
    is_Some (servers w !! p_database_url p) /\
    (cmd_up o cwd name None (k, w)).1 = Raise (ProfileNotFound (L "database")).
Proof.
  exists ex_outside, [L "work"], (L "other"), ex_other, 1000, (World lone_files ex_servers).
  cbn [files servers].
  assert (Hc : lone_files !! config [L "work"] = Some (Bytes (ex_print lone_yaml))).
  { unfold lone_files. rewrite lookup_store_out by (intros f; discriminate). apply lookup_insert. }
  split; [|split; [|split; [|split; vm_compute; [by eexists|reflexivity]]]].
  - eapply check_profile; [exact Hc|vm_compute; reflexivity|done| |vm_compute; reflexivity].
    intros dir' [x Hx] _. by exists x.
  - vm_compute. reflexivity.
  - unfold lone_files. rewrite history_stored; [exact ex_d0_reachable|].
    intros f. rewrite lookup_insert_ne by discriminate. by apply ex_tree_short.
Qed.

(** ** C48 *)
Definition ex_text : str := L "pg://$DB/${DB}x$DBx$ $$DB {$UNSET} ${DB".
Definition ex_pieces : list piece :=
  [Plain 112; Plain 103; Plain 58; Plain 47; Plain 47; Bare (L "DB"); Plain 47; Braced (L "DB"); Plain 120;
   Bare (L "DBx"); Plain 36; Plain 32; Plain 36; Bare (L "DB"); Plain 32; Plain 123; Bare (L "UNSET");
   Plain 125; Plain 32; Plain 36; Plain 123; Plain 68; Plain 66]%N.
Definition ex_values : str -> option str := fun n => if decide (n = L "DB") then Some (L "one$DBx") else None.
Lemma ex_text_expands :
  expand_envvar (fun _ => false) (fun n => Unicode <$> ex_values n) ex_text
  = L "pg://one$DBx/one$DBxx$ $one$DBx {} ${DB" /\
  concat (value ex_values <$> ex_pieces) = L "pg://one$DBx/one$DBxx$ $one$DBx {} ${DB" /\
  concat (written <$> ex_pieces) = ex_text.
Proof. split_and!; vm_compute; reflexivity. Qed.
Global Instance word_dec b c : Decision (word b c).
Proof. unfold word. destruct (decide _); apply _. Defined.
Lemma refute_other_bytes :
  exists (e : environment) (n : str), is_Some (e n) /\ name (fun _ => false) n /\
    expand_envvar (fun _ => false) e (L "$" ++ n) = [].
Proof.
  exists ex_env, (L "LATIN1"). split; [by eexists; vm_compute|]. split; [|vm_compute; reflexivity].
  split; [discriminate|]. apply (bool_decide_unpack _). vm_compute. exact I.
Qed.

(** ** C49: a broken configuration hides the one around it *)
Definition broken_files : filesystem :=
  <[config [L "work"] := Bytes (L "oops")]> (<[config [] := Bytes (ex_print ex_yaml)]> (dirs [[L "work"]])).
Lemma refute_fails_only :
  exists st (fs : filesystem) (cwd dir : path) e,
    enclosing fs cwd dir /\ (exists s, fs !! config dir = Some (Bytes s) /\ is_Some (st_parse st s)) /\
    discover_project st fs cwd = Raise e.
Proof.
  exists ex_setting, broken_files, [L "work"], [], BadConfig.
  assert (Hc : broken_files !! config [] = Some (Bytes (ex_print ex_yaml))).
  { unfold broken_files. rewrite lookup_insert_ne by discriminate. apply lookup_insert. }
  split; [split; [apply prefix_nil|by eexists]|]. split; [|vm_compute; reflexivity].
  eexists. split; [exact Hc|]. eexists. apply ex_parse_print.
Qed.

(** ** C50: init overwrites a project whose configuration cannot be read *)
Definition spoilt_files : filesystem :=
  <[config [L "work"] := Bytes (L "oops")]> (ex_files ex_d5 ex_d0).
Definition ex_stage_file : path := [L "work"; L "database"; L "history"; L "stage.yaml"].
Lemma refute_init :
  exists (o : outside (list str)) cwd k fs fs' q v v',
    reads_base o /\ codec o /\ enclosing fs cwd cwd /\
    cmd_init o cwd (k, fs) = (Ret (), (0, fs')) /\
    fs !! q = Some (Bytes (encode_version o v)) /\ v_changes v <> [] /\
    fs' !! q = Some (Bytes (encode_version o v')) /\ v_changes v' = [].
Proof.
  pose (fs' := (cmd_init ex_outside [L "work"] (14, spoilt_files)).2.2).
  exists ex_outside, [L "work"], 14, spoilt_files, fs', ex_stage_file,
    (stage_of ex_d5), (new_stage (L "init")).
  split; [exact ex_reads_base|]. split; [exact ex_codec|].
  split; [split; [done|]; unfold spoilt_files; rewrite lookup_insert; by eexists|].
  split; [|split; [|split; [|split]]].
  - unfold fs'. apply run_pair; vm_compute; reflexivity.
  - unfold spoilt_files, ex_files. rewrite lookup_insert_ne by discriminate.
    rewrite lookup_store_out by (intros g; discriminate).
    change ex_stage_file with (p_history ex_default ++ [L "stage.yaml"]). rewrite lookup_store_in, lookup_empty.
    assert (E : ex_d5 !! L "stage.yaml" = Some (Document (stage_of ex_d5))) by (vm_compute; reflexivity).
    rewrite E. destruct (decide (None = Some _)); [discriminate|reflexivity].
  - vm_compute. discriminate.
  - vm_compute. reflexivity.
  - reflexivity.
Qed.

(** ** C59: variables in the metadata schema *)
Definition schema_yaml : yaml_project :=
  {[ L "database" := YamlProfile (L "$DB") (L "history") (L "definitions") (L "$SCHEMA") ]}.
Definition schema_profile : profile :=
  Profile (L "database") (L "postgresql://one") [L "history"] [L "definitions"] (L "$SCHEMA").
Definition schema_files : filesystem := {[ config [] := Bytes (ex_print schema_yaml) ]}.
Lemma schema_profile_at : profile_at ex_setting schema_files [] (L "database") schema_profile.
Proof.
  eapply check_profile; [apply lookup_singleton|vm_compute; reflexivity|done| |vm_compute; reflexivity].
  by intros.
Qed.
Lemma refute_schema_expanded :
  exists st (fs : filesystem) (cwd dir : path) y yp name p,
    configured st fs cwd dir y /\ y !! name = Some yp /\ profile_at st fs cwd name p /\
    expand st (y_metadata_schema yp) = L "meta" /\ p_metadata_schema p = L "$SCHEMA".
Proof.
  destruct schema_profile_at as (dir & y & yp & Hc & Hy & Hp).
  exists ex_setting, schema_files, [], dir, y, yp, (L "database"), schema_profile.
  split; [exact Hc|]. split; [exact Hy|]. split; [exact schema_profile_at|]. split; [|reflexivity].
  destruct Hp as (_ & _ & _ & _ & <-). vm_compute. reflexivity.
Qed.

(** ** C60, C61: how the process ends *)
Definition bad_stage : version := Version (L "stage") (Some (L "init")) [DropTable (L "public") (L "users")] [] [].
Definition bad_dir : hdir := <[L "stage.yaml" := Document bad_stage]> ex_d0.
Definition stage_call : invocation := Invocation (L "stage") None None.
Definition stage_command : subcommand := Subcommand (L "stage") true false.
Lemma refute_exit_status :
  exists (o : outside (list str)) cwd i s k w e,
    parse_arguments i = Some s /\ (dispatch o cwd s i (k, w)).1 = Raise e /\ (main o cwd i k w).1 = Exit 0.
Proof.
  exists ex_outside, [], stage_call, stage_command, 9, (World ∅ ∅), (ProjectNotFound []).
  split_and!; vm_compute; reflexivity.
Qed.
Lemma refute_displayed :
  exists (o : outside (list str)) cwd i s k w e,
    parse_arguments i = Some s /\ (dispatch o cwd s i (k, w)).1 = Raise (SnapshotFailed e) /\
    (main o cwd i k w).1 = Exit 101.
Proof.
  eexists ex_outside, ex_cwd, stage_call, stage_command, 1000, (ex_world bad_dir ex_d0), _.
  split_and!; vm_compute; reflexivity.
Qed.

(** ** C64: a session *)
Definition ex_dir : path := [L "work"].
Definition ex_start : world (list str) := World (dirs [[L "work"]]) {[ new_url := empty_db ]}.
Definition ws0 : world (list str) :=
  World (cmd_init ex_outside ex_dir (1000, files ex_start)).2.2 (servers ex_start).
Definition ws1 : world (list str) :=
  World (<[definitions_of ex_dir ++ [L "public.yaml"] := Bytes (L "source")]> (files ws0)) (servers ws0).
Definition ws2 : world (list str) := (cmd_stage ex_outside ex_dir (L "database") (1000, ws1)).2.2.
Definition ws3 : world (list str) := (cmd_make ex_outside ex_dir (L "database") (Some (L "first")) (1000, ws2)).2.2.
Definition ws4 : world (list str) := (cmd_up ex_outside ex_dir (L "database") None (1000, ws3)).2.2.

Lemma same_machine_refl {S} (o : outside S) : same_machine o o.
Proof. by repeat split. Qed.
Lemma nearest_self (fs : filesystem) (dir : path) : is_Some (fs !! config dir) -> nearest fs dir dir.
Proof. intros H. split; [by split|]. by intros dir' [? _]. Qed.
Lemma start_none q : (exists x, q = L "work" :: x /\ x <> []) \/ length q <> 1 -> files ex_start !! q = None.
Proof.
  assert (Hall : map_Forall (fun q _ => q = [L "work"]) (files ex_start)).
  { apply (bool_decide_unpack _). vm_compute. exact I. }
  intros Hq. destruct (files ex_start !! q) as [n|] eqn:Hn; [|reflexivity].
  apply Hall in Hn as ->. destruct Hq as [(x & [= <-] & Hx)|Hq]; [by destruct Hx|by destruct Hq].
Qed.
Lemma ws0_workspace : workspace ex_outside ex_dir ws0.
Proof.
  unfold ws0. eapply (workspace_init _ _ ex_outside 1000 ex_start _ _ empty_db).
  - apply same_machine_refl.
  - intros dir [x Hx] Hd. destruct dir as [|a [|]]; [done| |discriminate Hx].
    injection Hx as <- _. vm_compute. reflexivity.
  - intros dir' [[x Hx] [n Hn]]. destruct dir' as [|a [|]]; [| |discriminate Hx].
    + revert Hn. vm_compute. discriminate.
    + rewrite start_none in Hn; [discriminate|]. right. discriminate.
  - intros q [x ->]. apply start_none. left. eexists. split; [reflexivity|discriminate].
  - intros q [x ->]. apply start_none. left. eexists. split; [reflexivity|discriminate].
  - apply lookup_singleton.
  - apply lookup_empty.
  - apply pair_eta. vm_compute. reflexivity.
Qed.
Lemma ws1_workspace : workspace ex_outside ex_dir ws1.
Proof.
  unfold ws1. apply workspace_edit; [exact ws0_workspace|].
  intros q Hq. rewrite lookup_insert_ne; [reflexivity|]. intros <-. apply Hq. by eexists.
Qed.
Ltac config_there := apply nearest_self; apply (bool_decide_unpack _); vm_compute; exact I.
Lemma ws2_workspace : workspace ex_outside ex_dir ws2.
Proof.
  eapply (workspace_command _ _ ex_outside ex_dir ws1); [exact ws1_workspace|apply same_machine_refl|config_there| | |].
  - apply project_stage.
  - unfold ws2. eapply pair_eta. vm_compute. reflexivity.
  - discriminate.
Qed.
Lemma first_plain : plain_name (made_name t1 (Some (L "first"))).
Proof.
  apply made_name_plain; [exact t1_timestamp|]. intros n [= <-]. split; [by_computation|].
  intros [m E]. apply (f_equal reverse) in E. rewrite reverse_app in E. apply (f_equal head) in E. vm_compute in E. done.
Qed.
Lemma ws3_workspace : workspace ex_outside ex_dir ws3.
Proof.
  eapply (workspace_command _ _ ex_outside ex_dir ws2); [exact ws2_workspace|apply same_machine_refl|config_there| | |].
  - apply (project_make _ _ _ _ (Some (L "first"))).
    + vm_compute. reflexivity.
    + exact first_plain.
  - unfold ws3. eapply pair_eta. vm_compute. reflexivity.
  - discriminate.
Qed.
Lemma ws4_workspace : workspace ex_outside ex_dir ws4.
Proof.
  eapply (workspace_command _ _ ex_outside ex_dir ws3); [exact ws3_workspace|apply same_machine_refl|config_there| | |].
  - apply (project_up _ _ _ _ None). discriminate.
  - unfold ws4. eapply pair_eta. vm_compute. reflexivity.
  - exact I.
Qed.
Definition ws_rows (w : world (list str)) : option (list str) :=
  match servers w !! new_url with
  | Some db => match pg_schemas db !! new_schema with Some (Some t) => Some (row_name <$> t_rows t) | _ => None end
  | None => None
  end.
Lemma ws4_rows : ws_rows ws4 = Some [L "init"; L "20240101_120000-first"].
Proof. vm_compute. reflexivity. Qed.

Lemma refute_writable :
  exists t : str, forall s, exists e, expand_envvar (fun _ => false) e s <> t.
Proof.
  exists (L "$DB"). intros s.
  assert (H : ~ exists s, forall e, expand_envvar (fun _ => false) (fun n => Unicode <$> e n) s = L "$DB").
  { intros H. apply (proj1 (writable (fun _ => false) (L "$DB")) H [] (L "$DB") eq_refl).
    exists (L "DB"), []. split; [|by left]. split; [discriminate|].
    apply (bool_decide_unpack _). vm_compute. exact I. }
  destruct (expand_reads (fun _ => false) s) as (ps & _ & Hps).
  destruct (decide (concat (value (fun _ => None) <$> ps) = L "$DB")) as [E1|E1].
  2:{ exists (fun n => Unicode <$> None). by rewrite (Hps (fun _ => None)). }
  destruct (decide (concat (value (fun _ => Some (L "$DB$DB")) <$> ps) = L "$DB")) as [E2|E2].
  2:{ exists (fun n => Unicode <$> Some (L "$DB$DB")). by rewrite (Hps (fun _ => Some (L "$DB$DB"))). }
  exfalso. apply H. exists s. intros e. rewrite Hps. rewrite <-E1.
  assert (Hno : forall p, p ∈ ps -> exists c, p = Plain c).
  { clear -E1 E2. revert E1 E2. intros E1 E2.
    assert (Hl : length (concat (value (fun _ => None) <$> ps)) = length (concat (value (fun _ => Some (L "$DB$DB")) <$> ps))).
    { by rewrite E1, E2. }
    clear E1 E2. induction ps as [|p ps IH]; [intros p Hp; by apply elem_of_nil in Hp|].
    assert (Hle : forall qs, length (concat (value (fun _ => None) <$> qs)) <= length (concat (value (fun _ => Some (L "$DB$DB")) <$> qs))).
    { induction qs as [|q qs IHq]; [done|]. rewrite !fmap_cons. cbn [concat]. rewrite !app_length.
      assert (length (value (fun _ => None) q) <= length (value (fun _ => Some (L "$DB$DB")) q)) by (destruct q; cbn; lia). lia. }
    rewrite !fmap_cons in Hl. cbn [concat] in Hl. rewrite !app_length in Hl. specialize (Hle ps).
    intros q Hq. apply elem_of_cons in Hq as [->|Hq].
    - destruct p as [c|n|n]; [by eexists|..];
        change (length (value _ _)) with 0 in Hl at 1; change (length (value _ _)) with 6 in Hl; lia.
    - apply IH; [|done].
      assert (length (value (fun _ => None) p) <= length (value (fun _ => Some (L "$DB$DB")) p)) by (destruct p; cbn; lia).
      lia. }
  f_equal. apply list_fmap_ext. intros i p Hp. apply elem_of_list_lookup_2 in Hp.
  apply Hno in Hp as [c ->]. done.
Qed.

Lemma ex_configured default other : configured ex_setting (ex_files default other) ex_cwd [L "work"] ex_yaml.
Proof.
  destruct (proj1 (ex_profiles default other)) as (dir & y & yp & Hc & _).
  assert (Hf : ex_files default other !! config [L "work"] = Some (Bytes (ex_print ex_yaml))).
  { rewrite ex_short by discriminate. unfold ex_tree. apply lookup_insert. }
  destruct Hc as [Hn (s & Hs & Hy)].
  assert (Hdir : dir = [L "work"]).
  { destruct Hn as [[[x Hx] [n Hd]] Hmax]. specialize (Hmax [L "work"]).
    destruct dir as [|a [|b [|]]]; [..|discriminate Hx].
    - destruct Hmax as [z Hz]; [split; [by exists [L "sub"]|by eexists]|]. discriminate Hz.
    - by injection Hx as <- _.
    - injection Hx as <- <- _. rewrite ex_short in Hd by discriminate. revert Hd. vm_compute. discriminate. }
  subst dir. split; [exact Hn|]. exists (ex_print ex_yaml). split; [exact Hf|apply ex_parse_print].
Qed.
Lemma ex_discovers :
  exists proj, discover_project ex_setting (ex_files ex_d5 ex_d0) ex_cwd = Ret proj /\ base_dir proj = [L "work"] /\
    ex_cwd = [L "work"; L "sub"] /\ get_profile proj (L "other") = Ret ex_other.
Proof.
  eexists. split; [apply discover_ret; exists [L "work"], ex_yaml; split; [apply ex_configured|reflexivity]|].
  split; [reflexivity|]. split; [reflexivity|]. vm_compute. reflexivity.
Qed.

Lemma ex_start_fresh :
  reads_base ex_outside /\ codec ex_outside /\ reads_back (documents_of ex_outside) /\ exists_dir (files ex_start) ex_dir /\
  (forall dir, ~ enclosing (files ex_start) ex_dir dir) /\
  (forall q, config ex_dir `prefix_of` q -> files ex_start !! q = None) /\
  (forall q, (ex_dir ++ [L "database"]) `prefix_of` q -> files ex_start !! q = None).
Proof.
  split; [exact ex_reads_base|]. split; [exact ex_codec|]. split; [exact ex_reads_back|]. split.
  { intros dir [x Hx] Hd. destruct dir as [|a [|]]; [done| |discriminate Hx].
    injection Hx as <- _. vm_compute. reflexivity. }
  split.
  { intros dir' [[x Hx] [n Hn]]. destruct dir' as [|a [|]]; [| |discriminate Hx].
    + revert Hn. vm_compute. discriminate.
    + rewrite start_none in Hn; [discriminate|]. right. discriminate. }
  split; intros q [x ->]; apply start_none; left; eexists; (split; [reflexivity|discriminate]).
Qed.

Lemma ex_status :
  profile_at ex_setting (ex_files ex_d1 ex_d0) ex_cwd (L "other") ex_other /\
  profile_at ex_setting (ex_files ex_d1 ex_d0) ex_cwd (L "database") ex_default /\
  is_directory (ex_files ex_d1 ex_d0) (p_history ex_default) = true /\
  reachable (history_at ex_outside (p_history ex_default) (ex_files ex_d1 ex_d0)) /\
  load_definitions ex_outside (below (p_definitions ex_default) (ex_files ex_d1 ex_d0)) = Ret database_new.
Proof.
  split; [apply ex_profiles|]. split; [apply ex_profiles|]. split; [vm_compute; reflexivity|].
  split; [rewrite ex_history_default; exact ex_d1_reachable|]. vm_compute. reflexivity.
Qed.
