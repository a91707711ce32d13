(** Proofs of the properties of projects and commands. *)
From Verif Require Import Base Text Types Changes Diff Sql History Dbh Expand SpecExpand Project World SpecProject
  ExpandLemmas ProjectLemmas WorldLemmas.

(** ** Discovery *)

Section discovery.
  Context (st : setting).

  Lemma discover_exact (fs : filesystem) (cwd : path) :
    match discover_project st fs cwd with
    | Ret proj =>
        exists dir y, configured st fs cwd dir y /\ base_dir proj = dir /\
          forall name, (forall p, get_profile proj name = Ret p <-> profile_at st fs cwd name p) /\
                       (y !! name = None <-> get_profile proj name = Raise (ProfileNotFound name))
    | Raise (ProjectNotFound _) => forall dir, ~ enclosing fs cwd dir
    | Raise BadConfig =>
        exists dir, nearest fs cwd dir /\
          forall s, fs !! config dir = Some (Bytes s) -> st_parse st s = None
    | _ => False
    end.
  Proof.
    destruct (discover_cases st fs cwd) as [(dir & Hn & Hd)|[Hno Hd]]; rewrite Hd; [|done].
    destruct (load_project_from_file st fs dir (config dir)) as [proj|e| | |] eqn:Hl.
    - assert (Hret : discover_project st fs cwd = Ret proj) by congruence.
      pose proof Hret as Hret'. apply discover_ret in Hret' as (dir' & y & Hc & ->).
      exists dir', y. split; [done|]. split; [done|]. intros name. split.
      + intros p. rewrite profile_at_spec. split.
        * intros Hp. by eexists.
        * intros (proj & Hp & Hg). by rewrite Hret in Hp; injection Hp as <-.
      + rewrite loaded_profile. by destruct (y !! name).
    - unfold load_project_from_file, load_project_from_str in Hl.
      destruct (fs !! config dir) as [[|s]|] eqn:Hs;
        [injection Hl as <-| |injection Hl as <-]; [exists dir; split; [done|]; intros s' Hs'; congruence| |exists dir; split; [done|]; intros s' Hs'; congruence].
      destruct (st_parse st s) eqn:Hy; [discriminate|]. injection Hl as <-.
      exists dir. split; [done|]. intros s' Hs'. congruence.
    - unfold load_project_from_file, load_project_from_str in Hl.
      destruct (fs !! config dir) as [[|s]|]; try discriminate. by destruct (st_parse st s).
    - unfold load_project_from_file, load_project_from_str in Hl.
      destruct (fs !! config dir) as [[|s]|]; try discriminate. by destruct (st_parse st s).
    - unfold load_project_from_file, load_project_from_str in Hl.
      destruct (fs !! config dir) as [[|s]|]; try discriminate. by destruct (st_parse st s).
  Qed.
  Lemma discover_none (fs : filesystem) (cwd : path) :
    (exists dir, discover_project st fs cwd = Raise (ProjectNotFound dir)) <-> forall dir, ~ enclosing fs cwd dir.
  Proof.
    pose proof (discover_exact fs cwd) as He. split.
    - intros [dir Hd]. by rewrite Hd in He.
    - intros Hno. destruct (discover_project st fs cwd) as [proj|e| | |]; try done.
      + destruct He as (dir & y & [[Hn _] _] & _). by destruct (Hno dir).
      + destruct e; try done.
        * by eexists.
        * destruct He as (dir & [Hn _] & _). by destruct (Hno dir).
  Qed.
End discovery.

(** ** Commands and profiles *)

Section commands.
  Context {S : Type} (o : outside S).
  Notation st := (setting_of o).
  Local Notation local_files := (local_files o).
  Local Notation reads_base := (reads_base o).

  Lemma resolve_ret (w : world S) (cwd : path) (name : str) (p : profile) :
    profile_at st (files w) cwd name p ->
    exists proj, discover_project st (files w) cwd = Ret proj /\ resolve_history_dir proj name = Ret (p_history p) /\
      resolve_definitions_dir proj name = Ret (p_definitions p) /\
      resolve_database_url proj name = Ret (p_database_url p) /\
      resolve_metadata_schema proj name = Ret (p_metadata_schema p).
  Proof.
    intros Hp. apply profile_at_spec in Hp as (proj & Hd & Hg). exists proj.
    unfold resolve_history_dir, resolve_definitions_dir, resolve_database_url, resolve_metadata_schema.
    rewrite Hg. done.
  Qed.
  Lemma resolve_two (w : world S) (cwd : path) (name name' : str) (p p' : profile) :
    profile_at st (files w) cwd name p -> profile_at st (files w) cwd name' p' ->
    exists proj, discover_project st (files w) cwd = Ret proj /\
      get_profile proj name = Ret p /\ get_profile proj name' = Ret p'.
  Proof.
    intros Hp Hp'. apply profile_at_spec in Hp as (proj & Hd & Hg).
    apply profile_at_spec in Hp' as (proj' & Hd' & Hg'). exists proj.
    rewrite Hd in Hd'. injection Hd' as <-. done.
  Qed.

  Definition stage_at (p : profile) : io filesystem () := fun s =>
    in_history o (p_history p)
      (stage (listing_of o) (order_source o) (order_target o)
         (load_definitions o (below (p_definitions p) (s.2)))) s.
  Lemma stage_run cwd name p k w :
    profile_at st (files w) cwd name p -> cmd_stage o cwd name (k, w) = on_files (stage_at p) (k, w).
  Proof.
    intros Hp. destruct (resolve_ret w cwd name p Hp) as (proj & Hd & Hh & Hdef & _).
    unfold cmd_stage, discovered, resolved, ibind at 1, iread at 1. cbn [snd]. rewrite Hd.
    unfold ibind at 1, iread at 1. rewrite Hh. unfold ibind at 1, iread at 1. rewrite Hdef. reflexivity.
  Qed.
  Lemma reset_run cwd name p k w :
    profile_at st (files w) cwd name p ->
    cmd_reset o cwd name (k, w) = on_files (in_history o (p_history p) (reset (listing_of o))) (k, w).
  Proof.
    intros Hp. destruct (resolve_ret w cwd name p Hp) as (proj & Hd & Hh & Hdef & _).
    unfold cmd_reset, discovered, resolved, ibind at 1, iread at 1. cbn [snd]. rewrite Hd.
    unfold ibind at 1, iread at 1. rewrite Hh. reflexivity.
  Qed.
  Lemma make_run cwd name version p k w :
    profile_at st (files w) cwd name p ->
    cmd_make o cwd name version (k, w) =
    on_files (in_history o (p_history p) (make (listing_of o) (now o) version)) (k, w).
  Proof.
    intros Hp. destruct (resolve_ret w cwd name p Hp) as (proj & Hd & Hh & Hdef & _).
    unfold cmd_make, discovered, resolved, ibind at 1, iread at 1. cbn [snd]. rewrite Hd.
    unfold ibind at 1, iread at 1. rewrite Hh. reflexivity.
  Qed.
  Lemma down_run cwd name version p k w :
    profile_at st (files w) cwd name p ->
    cmd_down o cwd name version (k, w) =
    on_server (p_database_url p)
      (down (statement o) (schema_ident o) (p_metadata_schema p) version) (k, w).
  Proof.
    intros Hp. destruct (resolve_ret w cwd name p Hp) as (proj & Hd & Hh & Hdef & Hu & Hm).
    unfold cmd_down, discovered, resolved, ibind at 1, iread at 1. cbn [snd]. rewrite Hd.
    unfold ibind at 1, iread at 1. rewrite Hu. unfold ibind at 1, iread at 1. rewrite Hm. reflexivity.
  Qed.
  Definition up_at (p dp : profile) (version : option str) (fs : filesystem) : io (session S) () :=
    if is_directory fs (p_history dp)
    then up (statement o) (schema_ident o) (listing_of o) (history_at o (p_history dp) fs)
           (p_metadata_schema p) version
    else iread (fun _ => Raise FileError).
  Lemma up_run cwd name version p dp k w :
    profile_at st (files w) cwd name p -> profile_at st (files w) cwd (L "database") dp ->
    cmd_up o cwd name version (k, w) =
    on_server (p_database_url p) (up_at p dp version (files w)) (k, w).
  Proof.
    intros Hp Hdp. destruct (resolve_two w cwd name (L "database") p dp Hp Hdp) as (proj & Hd & Hg & Hg').
    unfold cmd_up, discovered, resolved, ibind at 1, iread at 1. cbn [snd]. rewrite Hd.
    unfold ibind at 1, iread at 1, resolve_default_history_dir, resolve_history_dir.
    unfold DEFAULT_PROFILE. rewrite Hg'. unfold ebind at 1.
    unfold ibind at 1, iread at 1, resolve_database_url. rewrite Hg. unfold ebind at 1.
    unfold ibind at 1, iread at 1, resolve_metadata_schema. rewrite Hg. reflexivity.
  Qed.

  Lemma on_files_run {A} (m : io filesystem A) k (w : world S) r k' (w' : world S) :
    on_files m (k, w) = (r, (k', w')) ->
    m (k, files w) = (r, (k', files w')) /\ servers w' = servers w.
  Proof. unfold on_files. destruct (m (k, files w)) as [r0 [k0 fs0]]. by intros [= <- <- <-]. Qed.
  Lemma on_files_intro {A} (m : io filesystem A) k (w : world S) r k' fs' :
    m (k, files w) = (r, (k', fs')) -> on_files m (k, w) = (r, (k', World fs' (servers w))).
  Proof. unfold on_files. by intros ->. Qed.

  Lemma stage_local cwd name p : local_files cwd name p (cmd_stage o cwd name).
  Proof.
    intros k w r k' w' Hp Hm. rewrite (stage_run cwd name p) in Hm by done.
    apply on_files_run in Hm as [Hm Hs]. unfold stage_at in Hm. cbn [snd] in Hm.
    split; [by eapply in_history_touches|]. split; [done|]. intros w2 Hp2 Hh Hdef.
    eapply (in_history_reads o _ _ (stage (listing_of o) (order_source o) (order_target o)
         (load_definitions o (below (p_definitions p) (files w2))))) in Hm as (fs2' & Hm2 & Hs2); [|exact Hh|].
    - exists (World fs2' (servers w2)). rewrite (stage_run cwd name p) by done. split; [|exact Hs2]. apply on_files_intro. exact Hm2.
    - by rewrite (below_same _ _ _ Hdef).
  Qed.
  Lemma reset_local cwd name p : local_files cwd name p (cmd_reset o cwd name).
  Proof.
    intros k w r k' w' Hp Hm. rewrite (reset_run cwd name p) in Hm by done.
    apply on_files_run in Hm as [Hm Hs]. split; [by eapply in_history_touches|]. split; [done|].
    intros w2 Hp2 Hh Hdef.
    eapply in_history_reads in Hm as (fs2' & Hm2 & Hs2); [|exact Hh|reflexivity].
    exists (World fs2' (servers w2)). rewrite (reset_run cwd name p) by done. split; [|exact Hs2]. apply on_files_intro. exact Hm2.
  Qed.
  Lemma make_local cwd name version p : local_files cwd name p (cmd_make o cwd name version).
  Proof.
    intros k w r k' w' Hp Hm. rewrite (make_run cwd name version p) in Hm by done.
    apply on_files_run in Hm as [Hm Hs]. split; [by eapply in_history_touches|]. split; [done|].
    intros w2 Hp2 Hh Hdef.
    eapply in_history_reads in Hm as (fs2' & Hm2 & Hs2); [|exact Hh|reflexivity].
    exists (World fs2' (servers w2)). rewrite (make_run cwd name version p) by done. split; [|exact Hs2]. apply on_files_intro. exact Hm2.
  Qed.

  Lemma on_server_touches {A} url (m : io (session S) A) k (w : world S) r k' (w' : world S) :
    on_server url m (k, w) = (r, (k', w')) -> files w' = files w /\ same_servers url (servers w) (servers w').
  Proof.
    unfold on_server. destruct (servers w !! url) as [db|]; [|by intros [= <- <- <-]].
    destruct (m (k, Session db db)) as [r0 [k0 s0]]. intros [= <- <- <-]. split; [done|].
    intros url' Hne. cbn [servers]. by rewrite lookup_insert_ne.
  Qed.
  Lemma on_server_reads {A} url (m : io (session S) A) k (w w2 : world S) r k' (w' : world S) :
    servers w !! url = servers w2 !! url -> on_server url m (k, w) = (r, (k', w')) ->
    exists w2', on_server url m (k, w2) = (r, (k', w2')) /\ servers w' !! url = servers w2' !! url.
  Proof.
    unfold on_server. intros Heq. rewrite <- Heq. destruct (servers w !! url) as [db|] eqn:Hdb.
    - destruct (m (k, Session db db)) as [r0 [k0 s0]]. intros [= <- <- <-]. eexists. split; [done|].
      cbn [servers]. by rewrite !lookup_insert.
    - intros [= <- <- <-]. exists w2. split; [done|]. congruence.
  Qed.
  Lemma down_local cwd name version p k w r k' w' :
    profile_at st (files w) cwd name p -> cmd_down o cwd name version (k, w) = (r, (k', w')) ->
    files w' = files w /\ same_servers (p_database_url p) (servers w) (servers w') /\
    forall w2, profile_at st (files w2) cwd name p ->
      servers w !! p_database_url p = servers w2 !! p_database_url p ->
      exists w2', cmd_down o cwd name version (k, w2) = (r, (k', w2')) /\
        servers w' !! p_database_url p = servers w2' !! p_database_url p.
  Proof.
    intros Hp Hm. rewrite (down_run cwd name version p) in Hm by done.
    destruct (on_server_touches _ _ _ _ _ _ _ Hm) as [Hf Hs]. split; [done|]. split; [done|].
    intros w2 Hp2 Heq. rewrite (down_run cwd name version p) by done. by eapply on_server_reads.
  Qed.
  Lemma up_local cwd name version p dp k w r k' w' :
    profile_at st (files w) cwd name p -> profile_at st (files w) cwd (L "database") dp ->
    p_history dp = p_history p ->
    cmd_up o cwd name version (k, w) = (r, (k', w')) ->
    files w' = files w /\ same_servers (p_database_url p) (servers w) (servers w') /\
    forall w2 dp2, profile_at st (files w2) cwd name p -> profile_at st (files w2) cwd (L "database") dp2 ->
      p_history dp2 = p_history p ->
      same_at (p_history p) (files w) (files w2) ->
      servers w !! p_database_url p = servers w2 !! p_database_url p ->
      exists w2', cmd_up o cwd name version (k, w2) = (r, (k', w2')) /\
        servers w' !! p_database_url p = servers w2' !! p_database_url p.
  Proof.
    intros Hp Hdp Hh Hm. rewrite (up_run cwd name version p dp) in Hm by done.
    destruct (on_server_touches _ _ _ _ _ _ _ Hm) as [Hf Hs]. split; [done|]. split; [done|].
    intros w2 dp2 Hp2 Hdp2 Hh2 Hsame Heq. rewrite (up_run cwd name version p dp2) by done.
    assert (Hup : up_at p dp2 version (files w2) = up_at p dp version (files w)).
    { unfold up_at. rewrite Hh, Hh2.
      rewrite (is_directory_same _ _ _ Hsame), (history_at_same o _ _ _ Hsame). done. }
    rewrite Hup. by eapply on_server_reads.
  Qed.

  (** [up] works on the history of the default profile and the database of the selected one. *)
  Lemma up_local_exact cwd name version p dp k w r k' w' :
    profile_at st (files w) cwd name p -> profile_at st (files w) cwd (L "database") dp ->
    cmd_up o cwd name version (k, w) = (r, (k', w')) ->
    files w' = files w /\ same_servers (p_database_url p) (servers w) (servers w') /\
    forall w2 dp2, profile_at st (files w2) cwd name p -> profile_at st (files w2) cwd (L "database") dp2 ->
      p_history dp2 = p_history dp ->
      same_at (p_history dp) (files w) (files w2) ->
      servers w !! p_database_url p = servers w2 !! p_database_url p ->
      exists w2', cmd_up o cwd name version (k, w2) = (r, (k', w2')) /\
        servers w' !! p_database_url p = servers w2' !! p_database_url p.
  Proof.
    intros Hp Hdp Hm. rewrite (up_run cwd name version p dp) in Hm by done.
    destruct (on_server_touches _ _ _ _ _ _ _ Hm) as [Hf Hs]. split; [done|]. split; [done|].
    intros w2 dp2 Hp2 Hdp2 Hh2 Hsame Heq. rewrite (up_run cwd name version p dp2) by done.
    assert (Hup : up_at p dp2 version (files w2) = up_at p dp version (files w)).
    { unfold up_at. rewrite Hh2.
      rewrite (is_directory_same _ _ _ Hsame), (history_at_same o _ _ _ Hsame). done. }
    rewrite Hup. by eapply on_server_reads.
  Qed.

  (** ** init *)

  Lemma init_existing cwd k fs proj :
    discover_project st fs cwd = Ret proj -> cmd_init o cwd (k, fs) = (Ret (), (k, fs)).
  Proof. intros Hd. unfold cmd_init, ibind at 1. cbn [snd]. rewrite Hd. reflexivity. Qed.

  Lemma unchanged_insert (P : path -> Prop) (fs0 fs : filesystem) (q : path) (n : node) : unchanged P fs0 fs -> P q -> unchanged P fs0 (<[q := n]> fs).
  Proof. intros Hu Hq q' Hq'. rewrite lookup_insert_ne by (intros ->; done). by apply Hu. Qed.
  Lemma keeps_create (P : path -> Prop) (fs0 : filesystem) (q : path) : P q -> keeps (unchanged P fs0) (istep (file_create q)).
  Proof.
    intros Hq. apply keeps_step. intros fs HI. unfold file_create.
    destruct (is_directory fs _); [|done]. destruct (fs !! q) as [[|]|]; [done| |]; by apply unchanged_insert.
  Qed.
  Lemma keeps_write (P : path -> Prop) (fs0 : filesystem) (q : path) (b : str) : P q -> keeps (unchanged P fs0) (file_write q b).
  Proof.
    intros Hq. unfold file_write. apply keeps_bind; [by apply keeps_create|]. intros _.
    apply keeps_step. intros fs HI. by apply unchanged_insert.
  Qed.
  Lemma keeps_directory (P : path -> Prop) (fs0 : filesystem) (q : path) :
    (P q \/ fs0 !! q = Some Directory /\ ~ P q) -> keeps (unchanged P fs0) (directory_create q).
  Proof.
    intros Hq. apply keeps_step. intros fs HI. unfold is_directory.
    destruct (bool_decide (q = [])); [done|]. cbn [orb].
    case_bool_decide as Hd; [done|]. destruct (fs !! q) as [n|] eqn:Hn; [done|].
    destruct Hq as [Hq|[Hq Hnp]]; [by apply unchanged_insert|].
    rewrite <- (HI q Hnp) in Hq. congruence.
  Qed.
  Lemma keeps_directories (P : path -> Prop) (fs0 : filesystem) (above below : path) :
    (forall q, above `prefix_of` q -> q `prefix_of` above ++ below -> q <> above ->
       P q \/ fs0 !! q = Some Directory /\ ~ P q) ->
    keeps (unchanged P fs0) (directory_create_all above below).
  Proof.
    revert above. induction below as [|c below IH]; intros above Hq; [apply keeps_ret|].
    cbn [directory_create_all]. apply keeps_bind.
    - apply keeps_directory. apply Hq.
      + by exists [c].
      + exists below. by rewrite <- app_assoc.
      + intros Heq. apply (f_equal length) in Heq. rewrite app_length in Heq. simpl in Heq. lia.
    - intros _. apply IH. intros q Hp1 Hp2 Hne. apply Hq.
      + etransitivity; [|exact Hp1]. by exists [c].
      + by rewrite <- app_assoc in Hp2.
      + intros ->. apply prefix_length in Hp1. rewrite app_length in Hp1. simpl in Hp1. lia.
  Qed.
  Lemma keeps_in_history {A : Type} (P : path -> Prop) (fs0 : filesystem) (p : path) (m : io hdir A) :
    (forall f, P (p ++ [f])) -> keeps (unchanged P fs0) (in_history o p m).
  Proof.
    intros Hp k fs HI. unfold in_history. destruct (is_directory fs p); [|done].
    destruct (m (k, history_at o p fs)) as [r [k' d']]. cbn [snd]. intros q Hq.
    rewrite lookup_store_out; [by apply HI|]. intros f ->. by apply Hq.
  Qed.

  Lemma base_loaded cwd :
    get_profile (Project cwd (load_profile st cwd <$> st_order st base_yaml_project)) (L "database")
    = Ret (base_profile cwd).
  Proof.
    rewrite loaded_profile. unfold base_yaml_project, DEFAULT_PROFILE. rewrite lookup_singleton.
    unfold expanded, load_profile, base_profile. cbn [fst snd y_database_url y_history y_definitions y_metadata_schema].
    change (expand st (L "postgresql://localhost:5432/postgres")) with (L "postgresql://localhost:5432/postgres").
    change (expand st (L "database/history")) with (L "database/history").
    change (expand st (L "database/definitions")) with (L "database/definitions").
    change (join cwd (L "database/history")) with ((cwd ++ [L "database"]) ++ [L "history"]).
    change (join cwd (L "database/definitions")) with ((cwd ++ [L "database"]) ++ [L "definitions"]).
    by rewrite <- !app_assoc.
  Qed.

  Lemma prefix_of_cwd (cwd q : path) (x y : str) :
    q `prefix_of` cwd ++ [x; y] -> q `prefix_of` cwd \/ (cwd ++ [x]) `prefix_of` q.
  Proof.
    change ([x; y]) with ([x] ++ [y]). rewrite app_assoc. intros Hq.
    apply prefix_snoc_inv in Hq as [-> |Hq]; [right; by apply prefix_app_r|].
    apply prefix_snoc_inv in Hq as [-> |Hq]; [by right|by left].
  Qed.
  Lemma above_place (cwd q : path) : q `prefix_of` cwd -> ~ init_place cwd q.
  Proof.
    intros Hq [-> |Hp].
    - apply prefix_length in Hq. unfold config in Hq. rewrite app_length in Hq. simpl in Hq. lia.
    - pose proof (prefix_length _ _ Hq). apply prefix_length in Hp. rewrite app_length in Hp. simpl in Hp. lia.
  Qed.

  Lemma init_touches cwd k fs r k' fs' :
    reads_base -> exists_dir fs cwd -> cmd_init o cwd (k, fs) = (r, (k', fs')) ->
    unchanged (init_place cwd) fs fs'.
  Proof.
    intros Hbase Hcwd Hrun.
    enough (Hk : keeps (unchanged (init_place cwd) fs) (cmd_init o cwd)).
    { specialize (Hk k fs). rewrite Hrun in Hk. apply Hk. by intros q _. }
    unfold cmd_init. apply keeps_bind; [by intros k0 fs0 HI|].
    assert (Hdirs : forall y, keeps (unchanged (init_place cwd) fs) (directory_create_all [] (cwd ++ [L "database"; y]))).
    { intros y. apply keeps_directories. intros q _ Hq Hne. simpl in Hq.
      apply prefix_of_cwd in Hq as [Hq|Hq].
      - right. split; [by apply Hcwd|]. by apply above_place.
      - left. by right. }
    assert (Hrest : keeps (unchanged (init_place cwd) fs)
        (do proj <- initialize_project st cwd;
         do history <- iread (fun _ => resolve_default_history_dir proj);
         do definitions <- iread (fun _ => resolve_default_definitions_dir proj);
         do _ <- directory_create_all [] history;
         do _ <- directory_create_all [] definitions;
         do db <- iread (fun _ =>
          match apply_all (v_changes new_init) database_new with
          | (db, Ok _) =>
              match apply_all (v_changes (new_stage (v_name new_init))) db with
              | (db, Ok _) => Ret db
              | (_, Err e) => Raise (SnapshotFailed e)
              end
          | (_, Err e) => Raise (SnapshotFailed e)
          end);
         do _ <- in_history o history init_history;
         save_snapshot o (definitions ++ [L "public.yaml"]) db)).
    { intros k0 fs0 HI. unfold initialize_project.
      unfold ibind at 1. unfold ibind at 1.
      pose proof (keeps_write (init_place cwd) fs (cwd ++ [CONFIG_FILE]) (st_print st base_yaml_project)) as Hw.
      specialize (Hw (or_introl eq_refl) k0 fs0 HI).
      destruct (file_write (cwd ++ [CONFIG_FILE]) (st_print st base_yaml_project) (k0, fs0)) as [[| | | |] [k1 fs1]];
        cbn [unwrapped fst snd] in *; try done.
      unfold iread at 1. unfold load_project_from_str. rewrite Hbase.
      unfold ibind at 1, iread at 1. unfold resolve_default_history_dir, resolve_history_dir, DEFAULT_PROFILE.
      rewrite base_loaded. unfold ebind at 1. cbn [p_history base_profile].
      unfold ibind at 1, iread at 1. unfold resolve_default_definitions_dir, resolve_definitions_dir, DEFAULT_PROFILE.
      rewrite base_loaded. unfold ebind at 1. cbn [p_definitions base_profile].
      revert k1 fs1 Hw.
      change (keeps (unchanged (init_place cwd) fs)
        (do _ <- directory_create_all [] (cwd ++ [L "database"; L "history"]);
         do _ <- directory_create_all [] (cwd ++ [L "database"; L "definitions"]);
         do db <- iread (fun _ =>
          match apply_all (v_changes new_init) database_new with
          | (db, Ok _) =>
              match apply_all (v_changes (new_stage (v_name new_init))) db with
              | (db, Ok _) => Ret db
              | (_, Err e) => Raise (SnapshotFailed e)
              end
          | (_, Err e) => Raise (SnapshotFailed e)
          end);
         do _ <- in_history o (cwd ++ [L "database"; L "history"]) init_history;
         save_snapshot o ((cwd ++ [L "database"; L "definitions"]) ++ [L "public.yaml"]) db)).
      apply keeps_bind; [apply Hdirs|intros _].
      apply keeps_bind; [apply Hdirs|intros _].
      apply keeps_bind; [apply keeps_read|intros db].
      apply keeps_bind; [|intros _].
      - apply keeps_in_history. intros f. right. exists [L "history"; f].
        change ([L "database"; L "history"]) with ([L "database"] ++ [L "history"]).
        by rewrite <- !app_assoc.
      - unfold save_snapshot. apply keeps_bind; [apply keeps_read|intros text].
        apply keeps_write. right. exists [L "definitions"; L "public.yaml"].
        change ([L "database"; L "definitions"]) with ([L "database"] ++ [L "definitions"]).
        by rewrite <- !app_assoc. }
    intros existing. destruct existing; [apply keeps_ret|exact Hrest..].
  Qed.
  Lemma init_fresh cwd k fs r k' fs' :
    reads_base -> exists_dir fs cwd -> fs !! config cwd = None ->
    (forall q, (cwd ++ [L "database"]) `prefix_of` q -> fs !! q = None) ->
    cmd_init o cwd (k, fs) = (r, (k', fs')) -> forall q n, fs !! q = Some n -> fs' !! q = Some n.
  Proof.
    intros Hb Hcwd Hc Hd Hrun q n Hq.
    rewrite (init_touches cwd k fs r k' fs' Hb Hcwd Hrun); [done|].
    intros [-> |Hp]; [congruence|]. by rewrite (Hd q Hp) in Hq.
  Qed.
End commands.
