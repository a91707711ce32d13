(** What clone leaves behind. *)
From Verif Require Import Base Text Types Changes SpecSnapshot SpecMerge MergeLemmas SnapshotExamples Load Node Yaml Ddl
  SpecDefinition SaveLemmas SaveIff ContentLemmas DefinitionLemmas Diff Sql History Dbh Expand
  Project Definitions SpecDefinitions DefinitionsLemmas World SpecProject ProjectLemmas WorldLemmas ProjectProofs ProjectReady.
From Verif Require SpecIntrospect CatalogLemmas.

Section clone.
  Context {S : Type} (o : outside S).

  Lemma introspect_wf (db : pg S) d : introspect o db = Ret d -> wf_db d.
  Proof. intros (b & _ & _ & H)%CatalogLemmas.introspect_decoded. apply (SpecIntrospect.ho_wf _ _ H). Qed.

  Lemma clone_run cwd name p dp k w db d text :
    profile_at (setting_of o) (files w) cwd name p -> profile_at (setting_of o) (files w) cwd (L "database") dp ->
    servers w !! p_database_url p = Some db -> introspect o db = Ret d -> saved_text (documents_of o) d = Ret text ->
    files w !! p_definitions dp = Some Directory -> files w !! (p_definitions dp ++ [L "public.yaml"]) <> Some Directory ->
    cmd_clone o cwd name (2 + k, w) =
      (Ret (), (k, World (<[p_definitions dp ++ [L "public.yaml"] := Bytes text]> (files w)) (servers w))).
  Proof.
    intros Hp Hdp Hs Hi Ht Hd Hf. destruct (resolve_two o w cwd name (L "database") p dp Hp Hdp) as (proj & Hproj & Hg & Hg').
    unfold cmd_clone, discovered, resolved, ibind at 1, iread at 1. cbn [snd]. rewrite Hproj.
    unfold ibind at 1, iread at 1, resolve_database_url. rewrite Hg. unfold ebind at 1.
    unfold ibind at 1, iread at 1, resolve_default_definitions_dir, resolve_definitions_dir, DEFAULT_PROFILE.
    rewrite Hg'. unfold ebind at 1.
    unfold ibind at 1, iread at 1. cbn [snd]. rewrite Hs, Hi.
    unfold on_files, save_snapshot, ibind at 1, iread at 1. rewrite Ht.
    rewrite write_run; [done| |done]. rewrite parent_snoc. by apply is_directory_some.
  Qed.

  Lemma clone_files (fs : filesystem) (p : path) text q text' :
    fs !! p = Some Directory ->
    (forall q text, definition_at (below p fs) q text -> q = [L "public.yaml"]) ->
    definition_at (below p (<[p ++ [L "public.yaml"] := Bytes text]> fs)) q text' <->
    q = [L "public.yaml"] /\ text' = text.
  Proof.
    intros Hp Hother. set (fs' := <[p ++ [L "public.yaml"] := Bytes text]> fs).
    assert (forall r, r <> [L "public.yaml"] -> below p fs' !! r = below p fs !! r) as Hsame.
    { intros r Hr. rewrite !lookup_below. unfold fs'. rewrite lookup_insert_ne; [done|].
      intros H. apply app_inv_head in H. by subst r. }
    assert (below p fs' !! [L "public.yaml"] = Some (Bytes text)) as Hat.
    { rewrite lookup_below. apply lookup_insert. }
    split.
    - intros (H1 & H2 & H3). destruct (decide (q = [L "public.yaml"])) as [->|Hne]; [split; [done|congruence]|].
      exfalso. apply Hne, (Hother q text'). rewrite Hsame in H1 by done. split; [done|]. split; [done|].
      intros r Hr Hrq. rewrite <-(Hsame r); [by apply H3|]. intros ->. specialize (H3 _ Hr Hrq). congruence.
    - intros [-> ->]. split; [done|]. split.
      + exists [], (L "public.yaml"). split; [done|]. apply extension_yaml. vm_compute. reflexivity.
      + intros r Hr Hrq. destruct r as [|x r]; [rewrite lookup_below, app_nil_r; unfold fs'|].
        * rewrite lookup_insert_ne; [done|]. intros H. apply (f_equal length) in H. rewrite app_length in H. cbn in H. lia.
        * exfalso. destruct Hr as [s Hr]. injection Hr as <- Hr. destruct r; [done|discriminate Hr].
  Qed.

  (** What is written is loaded, exactly if it defines the snapshot. *)
  Lemma clone_loads cwd name p dp k w db d m :
    reads_back (documents_of o) ->
    profile_at (setting_of o) (files w) cwd name p -> profile_at (setting_of o) (files w) cwd (L "database") dp ->
    files w !! p_definitions dp = Some Directory -> files w !! (p_definitions dp ++ [L "public.yaml"]) <> Some Directory ->
    (forall q text, definition_at (below (p_definitions dp) (files w)) q text -> q = [L "public.yaml"]) ->
    servers w !! p_database_url p = Some db -> introspect o db = Ret d ->
    save_document (dc_save_order (documents_of o)) d = Done m ->
    exists w', cmd_clone o cwd name (2 + k, w) = (Ret (), (k, w')) /\ servers w' = servers w /\
      (forall q, q <> p_definitions dp ++ [L "public.yaml"] -> files w' !! q = files w !! q) /\
      forall t, load_definitions o (below (p_definitions dp) (files w')) = Ret t <-> load_document any_order m = Done t.
  Proof.
    intros Hb Hp Hdp Hd Hf Hother Hs Hi Hm.
    assert (saved_text (documents_of o) d = Ret (dc_print (documents_of o) m)) as Ht by (unfold saved_text; by rewrite Hm).
    eexists. split; [by eapply clone_run|]. cbn [servers files]. split; [done|].
    split; [intros q Hq; by apply lookup_insert_ne|].
    set (fs' := below _ _).
    assert (forall q text, definition_at fs' q text <-> q = [L "public.yaml"] /\ text = dc_print (documents_of o) m) as Hat
      by (intros q text; by apply clone_files).
    assert (fs' !! [] = Some Directory) as Hr.
    { unfold fs'. rewrite lookup_below, app_nil_r, lookup_insert_ne; [done|].
      intros H. apply (f_equal length) in H. rewrite app_length in H. cbn in H. lia. }
    intros t. split.
    - intros (_ & l & [H1 H2] & _ & Hw & Hc)%load_definition_files_exact.
      destruct (H2 [L "public.yaml"] (dc_print (documents_of o) m)) as [f Hl]; [by apply Hat|].
      assert (l = {[ [L "public.yaml"] := f ]}) as ->.
      { apply map_eq. intros q. destruct (decide (q = [L "public.yaml"])) as [->|Hne]; [by rewrite lookup_singleton|].
        rewrite lookup_singleton_ne by done. apply eq_None_not_Some. intros [f' Hf']. apply H1 in Hf' as (text & Ht' & _).
        by apply Hat in Ht' as [? _]. }
      apply H1 in Hl as (text & Ht' & Hdef). apply Hat in Ht' as [_ ->].
      apply defines_iff in Hdef. unfold load_yaml_string in Hdef. rewrite (Hb _ _ _ Hm) in Hdef.
      rewrite map_to_list_singleton in Hc. csimpl in Hc.
      destruct (load_document any_order m) as [f'|e|] eqn:El; [|done..]. injection Hdef as ->.
      f_equal. eapply contains_exactly_unique; [|exact Hw|apply contains_exactly_one|exact Hc].
      apply (read_wf (dc_read (documents_of o)) any_order (dc_print (documents_of o) m)). unfold load_yaml_string.
      by rewrite (Hb _ _ _ Hm), El.
    - intros Hl. eapply load_only; [done| |exact Hat|].
      + apply (read_wf (dc_read (documents_of o)) any_order (dc_print (documents_of o) m)). unfold load_yaml_string.
        by rewrite (Hb _ _ _ Hm), Hl.
      + exists m, any_order. split; [by eapply Hb|done].
  Qed.

  (** The definitions are then those of the database, if it can be written down. *)
  Lemma clone_savable cwd name p dp k w db d :
    reads_back (documents_of o) ->
    profile_at (setting_of o) (files w) cwd name p -> profile_at (setting_of o) (files w) cwd (L "database") dp ->
    files w !! p_definitions dp = Some Directory -> files w !! (p_definitions dp ++ [L "public.yaml"]) <> Some Directory ->
    (forall q text, definition_at (below (p_definitions dp) (files w)) q text -> q = [L "public.yaml"]) ->
    servers w !! p_database_url p = Some db -> introspect o db = Ret d -> machine_db d -> savable d ->
    exists w', cmd_clone o cwd name (2 + k, w) = (Ret (), (k, w')) /\ servers w' = servers w /\
      (forall q, q <> p_definitions dp ++ [L "public.yaml"] -> files w' !! q = files w !! q) /\
      load_definitions o (below (p_definitions dp) (files w')) = Ret d.
  Proof.
    intros Hb Hp Hdp Hd Hf Hother Hs Hi Hm Hsav.
    destruct (save_load (dc_save_order (documents_of o)) any_order d) as (m & H1 & H2); [by eapply introspect_wf|done|done|].
    destruct (clone_loads cwd name p dp k w db d m Hb Hp Hdp Hd Hf Hother Hs Hi H1) as (w' & H3 & H4 & H5 & H6).
    exists w'. split; [done|]. split; [done|]. split; [done|]. by apply H6.
  Qed.

  Lemma clone_unsaved cwd name p dp k w db d :
    profile_at (setting_of o) (files w) cwd name p -> profile_at (setting_of o) (files w) cwd (L "database") dp ->
    servers w !! p_database_url p = Some db -> introspect o db = Ret d ->
    (forall m, save_document (dc_save_order (documents_of o)) d <> Done m) ->
    forall r, (cmd_clone o cwd name (k, w)).1 <> Ret r.
  Proof.
    intros Hp Hdp Hs Hi Hno r. destruct (resolve_two o w cwd name (L "database") p dp Hp Hdp) as (proj & Hproj & Hg & Hg').
    unfold cmd_clone, discovered, resolved, ibind at 1, iread at 1. cbn [snd]. rewrite Hproj.
    unfold ibind at 1, iread at 1, resolve_database_url. rewrite Hg. unfold ebind at 1.
    unfold ibind at 1, iread at 1, resolve_default_definitions_dir, resolve_definitions_dir, DEFAULT_PROFILE.
    rewrite Hg'. unfold ebind at 1.
    unfold ibind at 1, iread at 1. cbn [snd]. rewrite Hs, Hi.
    unfold on_files, save_snapshot, ibind at 1, iread at 1, saved_text. cbn [fst snd].
    destruct (save_document (dc_save_order (documents_of o)) d) as [m|e|] eqn:E; [by destruct (Hno m)|by destruct e|done].
  Qed.

  (** A clone is loaded as the database exactly if the database can be written down. *)
  Lemma clone_iff cwd name p dp k w db d :
    reads_back (documents_of o) ->
    profile_at (setting_of o) (files w) cwd name p -> profile_at (setting_of o) (files w) cwd (L "database") dp ->
    files w !! p_definitions dp = Some Directory -> files w !! (p_definitions dp ++ [L "public.yaml"]) <> Some Directory ->
    (forall q text, definition_at (below (p_definitions dp) (files w)) q text -> q = [L "public.yaml"]) ->
    servers w !! p_database_url p = Some db -> introspect o db = Ret d -> machine_db d ->
    (exists w', cmd_clone o cwd name (2 + k, w) = (Ret (), (k, w')) /\
       load_definitions o (below (p_definitions dp) (files w')) = Ret d) <-> savable d.
  Proof.
    intros Hb Hp Hdp Hd Hf Hother Hs Hi Hm. split.
    - intros (w' & Hc & Hl).
      apply (save_load_iff (dc_save_order (documents_of o)) any_order); [by eapply introspect_wf|done|].
      destruct (save_document (dc_save_order (documents_of o)) d) as [m|e|] eqn:Hsave.
      + exists m. split; [done|].
        destruct (clone_loads cwd name p dp k w db d m Hb Hp Hdp Hd Hf Hother Hs Hi Hsave) as (w2 & H3 & _ & _ & H6).
        rewrite Hc in H3. injection H3 as <-. by apply H6.
      + exfalso. apply (clone_unsaved cwd name p dp (2 + k) w db d Hp Hdp Hs Hi) with (r := ()); [by rewrite Hsave|].
        by rewrite Hc.
      + exfalso. apply (clone_unsaved cwd name p dp (2 + k) w db d Hp Hdp Hs Hi) with (r := ()); [by rewrite Hsave|].
        by rewrite Hc.
    - intros Hsav. destruct (clone_savable cwd name p dp k w db d) as (w' & H1 & _ & _ & H2); try done.
      by exists w'.
  Qed.
End clone.
