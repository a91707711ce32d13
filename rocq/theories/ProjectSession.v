(** The invariant of a project's life. *)
From Verif Require Import Base Text Types Changes SpecSnapshot Diff Sql History SpecHistory HistoryLemmas HistoryProofs HistoryRun
  HistoryClaims Dbh SpecDb DbLemmas DbRun DbClaims DbProofs Expand Project Definitions SpecDefinitions DefinitionsLemmas World SpecProject ProjectLemmas WorldLemmas ProjectProofs
  ProjectReady ProjectStatus SpecSession.

(** ** A run that is not killed does not depend on the budget *)

Definition steady {T A : Type} (m : io T A) : Prop :=
  forall k s r k' s', m (k, s) = (r, (k', s')) -> r <> Killed -> forall j, m (k + j, s) = (r, (k' + j, s')).
Lemma steady_ret {T A : Type} (a : A) : @steady T A (iret a).
Proof. intros k s r k' s' [= <- <- <-] _ j. done. Qed.
Lemma steady_read {T A : Type} (f : T -> exec A) : steady (iread f).
Proof. intros k s r k' s' [= <- <- <-] _ j. done. Qed.
Lemma steady_step {T A : Type} (f : T -> exec A * T) : steady (istep f).
Proof.
  intros k s r k' s' H Hr j. unfold istep in *. destruct k as [|k]; [by injection H as <- _ _|].
  cbn [Nat.add]. destruct (f s) as [r0 s0]. by injection H as <- <- <-.
Qed.
Lemma steady_bind {T A B : Type} (m : io T A) (f : A -> io T B) :
  steady m -> (forall a, steady (f a)) -> steady (ibind m f).
Proof.
  intros Hm Hf k s r k' s' H Hr j. unfold ibind in *.
  destruct (m (k, s)) as [r0 [k0 s0]] eqn:E.
  destruct r0 as [a|e| | |]; try (injection H as <- <- <-; by rewrite (Hm _ _ _ _ _ E) by done).
  rewrite (Hm _ _ _ _ _ E) by done. by apply Hf.
Qed.
Lemma steady_save v : steady (save_version v).
Proof. unfold save_version. repeat first [apply steady_bind; [apply steady_step|intros ?]|apply steady_step]. Qed.
Lemma steady_init_history : steady init_history.
Proof. unfold init_history. apply steady_bind; [apply steady_save|intros ?; apply steady_save]. Qed.
Lemma steady_write p b : steady (file_write p b).
Proof. unfold file_write. apply steady_bind; [apply steady_step|intros ?; apply steady_step]. Qed.
Lemma steady_create_all above below : steady (directory_create_all above below).
Proof.
  revert above. induction below as [|c below IH]; intros above; [apply steady_ret|].
  cbn [directory_create_all]. apply steady_bind; [apply steady_step|intros ?; apply IH].
Qed.

Section session.
  Context {S : Type} (o : outside S).
  Notation st := (setting_of o).

  Lemma steady_in_history {A : Type} (p : path) (m : io hdir A) : steady m -> steady (in_history o p m).
  Proof.
    intros Hm k fs r k' fs' H Hr j. unfold in_history in *.
    destruct (is_directory fs p); [|by injection H as <- <- <-].
    destruct (m (k, history_at o p fs)) as [r0 [k0 d0]] eqn:E. injection H as <- <- <-.
    by rewrite (Hm _ _ _ _ _ E).
  Qed.
  Lemma steady_init cwd : steady (cmd_init o cwd).
  Proof.
    unfold cmd_init. apply steady_bind.
    { intros k s r k' s' [= <- <- <-] _ j. done. }
    intros e. destruct e; try apply steady_ret.
    all: apply steady_bind;
      [unfold initialize_project; apply steady_bind; [|intros ?; apply steady_read];
       intros k s r k' s' H Hr j;
       destruct (file_write (cwd ++ [CONFIG_FILE]) (st_print st base_yaml_project) (k, s)) as [r0 [k0 s0]] eqn:E;
       injection H as <- <- <-; rewrite (steady_write _ _ _ _ _ _ _ E); [done|by intros ->] |intros proj].
    all: repeat (apply steady_bind; [apply steady_read|intros ?]).
    all: repeat (apply steady_bind; [apply steady_create_all|intros ?]).
    all: repeat (apply steady_bind; [apply steady_read|intros ?]).
    all: apply steady_bind; [apply steady_in_history, steady_init_history|intros ?].
    all: apply steady_bind; [apply steady_read|intros ?; apply steady_write].
  Qed.

  Lemma in_history_directory {A : Type} (p : path) (m : io hdir A) k fs r k' fs' :
    in_history o p m (k, fs) = (r, (k', fs')) -> is_directory fs' p = is_directory fs p.
  Proof.
    unfold in_history. destruct (is_directory fs p) eqn:E; [|by intros [= <- <- <-]].
    destruct (m (k, history_at o p fs)) as [r0 [k0 d0]]. intros [= <- <- <-].
    unfold is_directory in *. rewrite lookup_store_out; [done|].
    intros f Hf. apply (f_equal length) in Hf. rewrite app_length in Hf. cbn in Hf. lia.
  Qed.

  (** Initialisation, with any budget that is enough. *)
  Lemma init_any cwd k fs k' fs' :
    reads_base o -> codec o -> exists_dir fs cwd ->
    (forall dir, ~ enclosing fs cwd dir) ->
    (forall q, config cwd `prefix_of` q -> fs !! q = None) ->
    (forall q, (cwd ++ [L "database"]) `prefix_of` q -> fs !! q = None) ->
    cmd_init o cwd (k, fs) = (Ret (), (k', fs')) ->
    fs' !! config cwd = Some (Bytes (st_print st base_yaml_project)) /\
    is_directory fs' (history_of cwd) = true /\
    history_at o (history_of cwd) fs' =
      <[L "stage.yaml" := Document (new_stage (L "init"))]> (<[L "init.yaml" := Document new_init]> ∅) /\
    below (definitions_of cwd) fs' =
      <[[L "public.yaml"] := Bytes (public_text (documents_of o))]> (<[[] := Directory]> ∅).
  Proof.
    intros Hb Hc He Hn Hq Hd H.
    destruct (init_run o cwd k fs) as (fs2 & H2 & Hrest); try done.
    { intros proj Hp. apply discover_ret in Hp as (dir & y & [[Hx _] _] & _). by apply (Hn dir). }
    pose proof (steady_init cwd _ _ _ _ _ H ltac:(done) (12 + 2 * length cwd)) as H3.
    rewrite Nat.add_comm, H2 in H3. injection H3 as _ ->. done.
  Qed.
End session.

Section life.
  Context {S : Type} (o : outside S) (Hbase : reads_base o) (Hcodec : codec o).

  Lemma machine_reads (o' : outside S) : same_machine o o' -> reads_base o'.
  Proof. intros (E1 & E2 & _). unfold reads_base. rewrite E1, E2. exact Hbase. Qed.
  Lemma machine_codec (o' : outside S) : same_machine o o' -> codec o'.
  Proof. intros (_ & _ & E1 & E2 & _). unfold codec. rewrite E1, E2. exact Hcodec. Qed.
  Lemma machine_history (o' : outside S) (p : path) (fs : filesystem) :
    same_machine o o' -> history_at o' p fs = history_at o p fs.
  Proof.
    intros (_ & _ & E & _). apply map_eq. intros f. rewrite !lookup_history_at.
    destruct (fs !! (p ++ [f])) as [[|b]|]; cbn; [done| |done]. by rewrite E.
  Qed.

  Lemma machine_profile (o' : outside S) (fs : filesystem) (cwd dir : path) :
    same_machine o o' -> fs !! config dir = Some (Bytes (st_print (setting_of o) base_yaml_project)) ->
    nearest fs cwd dir -> profile_at (setting_of o') fs cwd (L "database") (base_profile dir).
  Proof.
    intros Hm Hc Hn. apply profile_at_spec.
    exists (Project dir (load_profile (setting_of o') dir <$> st_order (setting_of o') base_yaml_project)).
    split; [|apply base_loaded]. apply discover_ret. exists dir, base_yaml_project. split; [|done].
    split; [done|]. eexists. split; [exact Hc|]. destruct Hm as (-> & _). exact Hbase.
  Qed.

  Lemma longer_prefix (p q : path) : p `prefix_of` q -> length p <= length q.
  Proof. intros [x ->]. rewrite app_length. lia. Qed.
  Lemma config_out (dir : path) (x y : str) : ~ dir ++ [x; y] `prefix_of` config dir.
  Proof. intros H%longer_prefix. unfold config in H. rewrite !app_length in H. cbn in H. lia. Qed.

  Lemma definitions_out (dir x : path) : ~ definitions_of dir `prefix_of` history_of dir ++ x.
  Proof.
    unfold definitions_of, history_of. rewrite <-app_assoc. intros H%prefix_app_inv.
    cbn in H. apply prefix_cons_inv_2 in H. by apply prefix_cons_inv_1 in H.
  Qed.

  Lemma status_reads (o' : outside S) cwd name k w r k' w' :
    cmd_status o' cwd name (k, w) = (r, (k', w')) -> w' = w.
  Proof.
    intros H. assert (Hk : keeps (fun x => x = w) (cmd_status o' cwd name)).
    { unfold cmd_status. repeat (apply keeps_bind; [apply keeps_read|intros ?]).
      apply keeps_bind; [|intros ?; apply keeps_ret].
      intros k0 x ->. destruct (database_version o' _ _ (k0, w)) as [r0 [k1 x]] eqn:E.
      by apply database_version_reads in E. }
    specialize (Hk k w eq_refl). by rewrite H in Hk.
  Qed.

  Definition alive (dir : path) (w : world S) : Prop :=
    files w !! config dir = Some (Bytes (st_print (setting_of o) base_yaml_project)) /\
    is_directory (files w) (history_of dir) = true /\
    exists db, servers w !! new_url = Some db /\
      together (statement o) (schema_ident o) new_schema (fun n => n <> L "stage")
        (history_at o (history_of dir) (files w)) db.

  (** A command on the history directory. *)
  Lemma alive_files (o' : outside S) (dir : path) (m : io hdir ()) k w r k' w' :
    same_machine o o' -> alive dir w -> keeps (has_all (history_at o (history_of dir) (files w))) m ->
    (forall d', m (k, history_at o (history_of dir) (files w)) = (r, (k', d')) ->
       command (history_at o (history_of dir) (files w)) d') ->
    on_files (in_history o' (history_of dir) m) (k, w) = (r, (k', w')) -> alive dir w'.
  Proof.
    intros Hm (Hc & Hd & db & Hs & Ht) Hk Hcmd H.
    apply on_files_run in H as [H Hsv].
    pose proof (in_history_run o' (history_of dir) m k (files w) r k' (files w') (machine_codec o' Hm) Hd) as Hrun.
    rewrite !(machine_history o' _ _ Hm) in Hrun. specialize (Hrun Hk H).
    split; [|split].
    - rewrite <-(in_history_touches _ _ _ _ _ _ _ _ H); [done|]. apply config_out.
    - by rewrite (in_history_directory _ _ _ _ _ _ _ _ H).
    - exists db. rewrite Hsv. split; [done|]. eapply together_command; [exact Ht|]. by apply Hcmd.
  Qed.

  (** A command on the database. *)
  Lemma alive_server (dir : path) (m : io (session S) ()) k w r k' w' :
    alive dir w ->
    (forall db db', together (statement o) (schema_ident o) new_schema (fun n => n <> L "stage")
        (history_at o (history_of dir) (files w)) db -> run m k db = (r, db') ->
       together (statement o) (schema_ident o) new_schema (fun n => n <> L "stage")
        (history_at o (history_of dir) (files w)) db') ->
    on_server new_url m (k, w) = (r, (k', w')) -> alive dir w'.
  Proof.
    intros (Hc & Hd & db & Hs & Ht) Hcmd H. unfold on_server in H. rewrite Hs in H.
    destruct (m (k, Session db db)) as [r0 [k0 s0]] eqn:E. injection H as <- <- <-.
    split; [done|]. split; [done|]. exists (rolled_back s0). cbn [servers files].
    rewrite lookup_insert. split; [done|]. eapply Hcmd; [exact Ht|]. unfold run. by rewrite E.
  Qed.

  Lemma workspace_alive (dir : path) w : workspace o dir w -> alive dir w.
  Proof.
    induction 1 as [o' k w k' fs db Hm He Hn Hq Hdb Hs Hsch H|o' cwd w m P k r k' w' Hw IH Hm Hn Hcmd H HP|w fs Hw IH Hsame].
    - destruct (init_any o' dir k (files w) k' fs (machine_reads o' Hm) (machine_codec o' Hm) He Hn Hq Hdb H)
        as (H1 & H2 & H3 & H4).
      split; [|split; [exact H2|]].
      { cbn [files]. rewrite H1. by destruct Hm as (_ & -> & _). }
      exists db. cbn [servers files]. split; [exact Hs|].
      apply (together_init _ _ _ _ 4 0); [|exact Hsch].
      rewrite <-(machine_history o' _ _ Hm), H3. apply (init_history_run 0).
    - assert (Hprof : profile_at (setting_of o') (files w) cwd (L "database") (base_profile dir)).
      { eapply machine_profile; [exact Hm| |exact Hn]. apply IH. }
      pose proof IH as (Hc & Hd & db & Hs & Ht).
      destruct Hcmd as [| |name Hnew Hplain|version Hv|version|].
      + rewrite (stage_run o' _ _ _ _ _ Hprof) in H. unfold stage_at in H.
        eapply (alive_files o' dir (stage (listing_of o') (order_source o') (order_target o')
           (load_definitions o' (below (definitions_of dir) (files w))))); [exact Hm|exact IH|apply keeps_stage| |exact H].
        intros d' Hrun. eapply command_stage; [exact Hrun|exact HP].
      + rewrite (reset_run o' _ _ _ _ _ Hprof) in H.
        eapply (alive_files o' dir); [exact Hm|exact IH|apply keeps_reset| |exact H].
        intros d' Hrun. eapply command_reset; [exact Hrun|exact HP].
      + rewrite (make_run o' _ _ _ _ _ _ Hprof) in H.
        eapply (alive_files o' dir); [exact Hm|exact IH|apply keeps_make| |exact H].
        intros d' Hrun. eapply command_make; [|exact Hplain|exact Hrun|exact HP].
        rewrite lookup_history_at, Hnew. done.
      + rewrite (up_run o' _ _ _ _ _ _ _ Hprof Hprof) in H. unfold up_at in H.
        change (p_history (base_profile dir)) with (history_of dir) in H. rewrite Hd in H.
        eapply (alive_server dir); [exact IH| |exact H].
        intros db1 db2 Ht1 Hrun. rewrite (machine_history o' _ _ Hm) in Hrun.
        destruct Hm as (_ & _ & _ & _ & Es & Ei). rewrite Es, Ei in Hrun.
        eapply together_up; [exact Ht1| |exact Hrun]. intros n -> ->. done.
      + rewrite (down_run o' _ _ _ _ _ _ Hprof) in H.
        eapply (alive_server dir); [exact IH| |exact H].
        intros db1 db2 Ht1 Hrun.
        destruct Hm as (_ & _ & _ & _ & Es & Ei). rewrite Es, Ei in Hrun.
        eapply together_down; [exact Ht1|exact Hrun].
      + unfold printed, ibind in H. destruct (cmd_status o' cwd (L "database") (k, w)) as [r0 [k0 w0]] eqn:E.
        apply status_reads in E as ->. by destruct r0; injection H as _ _ <-.
    - destruct IH as (Hc & Hd & db & Hs & Ht). split; [|split].
      + cbn. rewrite <-Hsame; [done|]. apply config_out.
      + cbn. unfold is_directory in *. rewrite <-Hsame; [done|].
        rewrite <-(app_nil_r (history_of dir)). apply definitions_out.
      + exists db. split; [done|]. cbn [files].
        replace (history_at o (history_of dir) fs) with (history_at o (history_of dir) (files w)); [done|].
        apply map_eq. intros f. rewrite !lookup_history_at. f_equal. apply Hsame, definitions_out.
  Qed.

  Lemma workspace_together (dir : path) w : workspace o dir w ->
    exists db, servers w !! new_url = Some db /\
      together (statement o) (schema_ident o) new_schema (fun n => n <> L "stage")
        (history_at o (history_of dir) (files w)) db.
  Proof. intros H. by apply workspace_alive in H as (_ & _ & H). Qed.
End life.

(** ** After init *)

Lemma fresh_reachable :
  reachable (<[L "stage.yaml" := Document (new_stage (L "init"))]> (<[L "init.yaml" := Document new_init]> ∅)).
Proof. eapply reachable_init. exact (init_history_run 0). Qed.
Lemma fresh_snapshot :
  calculate_snapshot (<[L "stage.yaml" := Document (new_stage (L "init"))]> (<[L "init.yaml" := Document new_init]> ∅))
    (L "stage") = Ret public_db.
Proof. vm_compute. reflexivity. Qed.
Lemma init_ready {S : Type} (o : outside S) cwd k fs :
  reads_base o -> codec o -> reads_back (documents_of o) -> exists_dir fs cwd ->
  (forall dir, ~ enclosing fs cwd dir) ->
  (forall q, config cwd `prefix_of` q -> fs !! q = None) ->
  (forall q, (cwd ++ [L "database"]) `prefix_of` q -> fs !! q = None) ->
  exists fs' db, cmd_init o cwd (12 + 2 * length cwd + k, fs) = (Ret (), (k, fs')) /\
    unchanged (init_place cwd) fs fs' /\
    profile_at (setting_of o) fs' cwd (L "database") (base_profile cwd) /\
    is_directory fs' (history_of cwd) = true /\
    reachable (history_at o (history_of cwd) fs') /\
    calculate_snapshot (history_at o (history_of cwd) fs') (L "stage") = Ret db /\
    load_definitions o (below (definitions_of cwd) fs') = Ret db.
Proof.
  intros Hb Hc Hbk He Hn Hq Hd.
  destruct (init_run o cwd k fs) as (fs' & H & H1 & H2 & H3 & H4); try done.
  { intros proj Hp. apply discover_ret in Hp as (dir & y & [[Hx _] _] & _). by apply (Hn dir). }
  exists fs', public_db. split; [exact H|]. split; [by eapply init_touches|].
  split; [by apply init_discovers|]. split; [exact H2|].
  unfold history_of. rewrite H3. split; [apply fresh_reachable|]. split; [apply fresh_snapshot|].
  unfold load_definitions, definitions_of. rewrite H4. by apply public_loads.
Qed.

(** ** The command line *)

Section command_line.
  Context {S : Type} (o : outside S) (cwd : path).

  Lemma dispatched i m : calls o cwd i m -> i_command i ∉ [L "clone"; L "sync"] ->
    exists s, parse_arguments i = Some s /\ forall k w, dispatch o cwd s i (k, w) = m (k, w).
  Proof.
    intros [] H; try (exfalso; apply H; cbn [i_command]; set_solver); clear H.
    all: eexists; split; [unfold parse_arguments, accepts; cbn; repeat (rewrite ?bool_decide_true by done);
      try destruct p; try destruct v; vm_compute; reflexivity|].
    all: intros k w; reflexivity.
  Qed.

  Lemma parsed i s : parse_arguments i = Some s -> s ∈ subcommands /\ s_name s = i_command i /\
    (s_profile s = false -> i_profile i = None) /\ (s_version s = false -> i_version i = None).
  Proof.
    unfold parse_arguments. destruct (filter _ subcommands) as [|x l] eqn:E; [done|]. intros [= ->].
    assert (Hin : s ∈ filter (fun s => accepts i s = true) subcommands) by (rewrite E; left).
    apply elem_of_list_filter in Hin as [Ha Hs]. split; [done|].
    unfold accepts in Ha. rewrite !andb_true_iff, !orb_true_iff, !bool_decide_eq_true in Ha.
    destruct Ha as [[H1 H2] H3]. split; [done|]. split; intros Hf; [destruct H2 as [H2|H2]|destruct H3 as [H3|H3]]; congruence.
  Qed.

  Lemma unknown_command i k w : i_command i ∉ advertised -> main o cwd i k w = (Exit 2, w).
  Proof.
    intros H. unfold main. destruct (parse_arguments i) as [s|] eqn:E; [|done].
    exfalso. apply H. apply parsed in E as (Hs & <- & _).
    unfold subcommands in Hs. repeat (apply elem_of_cons in Hs as [-> |Hs]; [cbn [s_name]; unfold advertised; set_solver|]).
    by apply elem_of_nil in Hs.
  Qed.

  Lemma broken_commands i k w : i_command i ∈ [L "clone"; L "print"; L "sync"] ->
    main o cwd i k w = (Exit 101, w) \/ main o cwd i k w = (Exit 2, w).
  Proof.
    intros H. unfold main. destruct (parse_arguments i) as [s|] eqn:E; [left|by right].
    apply parsed in E as (Hs & Hn & Hp & _). rewrite <-Hn in H.
    unfold subcommands in Hs.
    repeat (apply elem_of_cons in Hs as [-> |Hs];
      [try (exfalso; cbn [s_name] in H; revert H; apply (bool_decide_unpack _); vm_compute; exact I); reflexivity|]).
    by apply elem_of_nil in Hs.
  Qed.

  (** How a process ends. *)
  Lemma main_end i k w s r k' w' :
    parse_arguments i = Some s -> dispatch o cwd s i (k, w) = (r, (k', w')) ->
    (main o cwd i k w).2 = w' /\
    ((main o cwd i k w).1 = Exit 0 <-> r = Ret () \/ exists e, r = Raise e /\ forall x, e <> SnapshotFailed x) /\
    ((main o cwd i k w).1 = Exit 101 <-> r = Abort \/ exists x, r = Raise (SnapshotFailed x)).
  Proof.
    intros Hp Hd. unfold main. rewrite Hp, Hd. cbn [fst snd]. split; [done|].
    destruct r as [[]|e| | |]; cbn; [naive_solver| |naive_solver..].
    destruct e; cbn [displays]; split; split; intros Hx; try done;
      try (right; eexists; split; [reflexivity|done]);
      try (by destruct Hx as [|[]]);
      try (by destruct Hx as [|(? & [= <-] & Hx)]; [|destruct (Hx _ eq_refl)]);
      try (by right; eexists).
  Qed.
End command_line.

(** ** Further statements *)

Lemma workspace_consistent {S : Type} (o : outside S) dir w :
  reads_base o -> codec o -> workspace o dir w ->
  reachable (history_at o (history_of dir) (files w)) /\
  exists db, servers w !! new_url = Some db /\
    together (statement o) (schema_ident o) new_schema (fun n => n <> L "stage")
      (history_at o (history_of dir) (files w)) db /\
    forall t, schema_ident o new_schema = Some new_schema -> has_table db new_schema t ->
      exists cur names, newest (t_rows t) cur /\
        v_name <$> (r_version <$> t_rows t) = L "init" :: names /\
        SpecHistory.path (history_at o (history_of dir) (files w)) (L "init") names (v_name (r_version cur)) /\
        forall r, r ∈ t_rows t -> stored (history_at o (history_of dir) (files w)) (v_name (r_version r)) (r_version r).
Proof.
  intros Hb Hc Hw. destruct (workspace_together o Hb Hc dir w Hw) as (db & Hs & Ht).
  split; [by eapply together_reachable|]. exists db. split; [done|]. split; [done|].
  intros t Hi Htab. destruct (together_current _ _ _ Hi _ _ _ Ht Htab) as (cur & names & H1 & _ & H2 & H3 & H4).
  exists cur, names. done.
Qed.

Lemma init_configured {S : Type} (o : outside S) cwd dir y k fs :
  configured (setting_of o) fs cwd dir y -> cmd_init o cwd (k, fs) = (Ret (), (k, fs)).
Proof.
  intros H. eapply init_existing. apply discover_ret. exists dir, y. split; [done|reflexivity].
Qed.

Lemma profile_expanded (st : setting) (fs : filesystem) (cwd dir : path) y name yp proj :
  configured st fs cwd dir y -> y !! name = Some yp -> discover_project st fs cwd = Ret proj ->
  exists p, get_profile proj name = Ret p /\
    p_database_url p = expand st (y_database_url yp) /\
    p_history p = join dir (expand st (y_history yp)) /\
    p_definitions p = join dir (expand st (y_definitions yp)).
Proof.
  intros Hc Hy Hp.
  assert (E : discover_project st fs cwd = Ret (Project dir (load_profile st dir <$> st_order st y))).
  { apply discover_ret. exists dir, y. done. }
  rewrite E in Hp. injection Hp as <-. rewrite loaded_profile, Hy. eexists. split; [reflexivity|]. done.
Qed.

Lemma profile_fields (st : setting) (fs : filesystem) (cwd dir : path) y name yp proj :
  configured st fs cwd dir y -> y !! name = Some yp -> discover_project st fs cwd = Ret proj ->
  exists p, get_profile proj name = Ret p /\
    p_database_url p = expand st (y_database_url yp) /\
    p_metadata_schema p = y_metadata_schema yp /\
    (p_metadata_schema p = expand st (y_metadata_schema yp) <->
       expand st (y_metadata_schema yp) = y_metadata_schema yp) /\
    p_history p = join dir (expand st (y_history yp)) /\
    p_definitions p = join dir (expand st (y_definitions yp)).
Proof.
  intros Hc Hy Hp.
  assert (E : discover_project st fs cwd = Ret (Project dir (load_profile st dir <$> st_order st y))).
  { apply discover_ret. exists dir, y. done. }
  rewrite E in Hp. injection Hp as <-. rewrite loaded_profile, Hy. eexists. split; [reflexivity|].
  repeat split; cbn; congruence.
Qed.

Lemma refute_every_command :
  exists c, c ∈ advertised /\ (exists i, i_command i = c /\ is_Some (parse_arguments i)) /\
    forall (S : Type) (o : outside S) cwd i k w, i_command i = c ->
      main o cwd i k w = (Exit 101, w) \/ main o cwd i k w = (Exit 2, w).
Proof.
  exists (L "clone"). split; [apply (bool_decide_unpack _); vm_compute; exact I|].
  split; [exists (Invocation (L "clone") None None); split; [done|]; eexists; vm_compute; reflexivity|].
  intros S o cwd i k w Hi. apply broken_commands. rewrite Hi. left.
Qed.
