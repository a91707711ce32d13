(** The commands on files do what the commands on history directories do; the state after
    init. *)
From Verif Require Import Base Text Types Changes SpecSnapshot DecideSpec Ddl SpecDefinition DecideDefinition SaveLemmas Diff Sql History SpecHistory HistoryProofs HistoryRun HistoryClaims
  Dbh Expand Project Definitions SpecDefinitions DefinitionsLemmas
  World SpecProject ProjectLemmas WorldLemmas ProjectProofs.

(** ** No command removes a file *)

Definition has_all (d d' : hdir) : Prop := forall f, is_Some (d !! f) -> is_Some (d' !! f).
Lemma has_all_insert d d' f e : has_all d d' -> has_all d (<[f := e]> d').
Proof.
  intros H f' Hf. destruct (decide (f = f')) as [->|Hne]; [rewrite lookup_insert; eauto|].
  rewrite lookup_insert_ne by done. by apply H.
Qed.
Lemma keeps_save d0 v : keeps (has_all d0) (save_version v).
Proof.
  unfold save_version. apply keeps_bind.
  - apply keeps_step. intros d Hd. destruct (decide _); [done|].
    destruct (d !! version_file (v_name v)) as [[]|]; try done; by apply has_all_insert.
  - intros _. apply keeps_step. intros d Hd. by apply has_all_insert.
Qed.
Lemma keeps_init d0 : keeps (has_all d0) init_history.
Proof. unfold init_history. apply keeps_bind; [apply keeps_save|intros _; apply keeps_save]. Qed.
Lemma keeps_stage d0 l os ot defs : keeps (has_all d0) (stage l os ot defs).
Proof.
  unfold stage. repeat (apply keeps_bind; [apply keeps_read|intros ?]). apply keeps_save.
Qed.
Lemma keeps_reset d0 l : keeps (has_all d0) (reset l).
Proof. unfold reset. repeat (apply keeps_bind; [apply keeps_read|intros ?]). apply keeps_save. Qed.
Lemma keeps_make d0 l now name : keeps (has_all d0) (make l now name).
Proof.
  unfold make. repeat (apply keeps_bind; [apply keeps_read|intros ?]).
  destruct (is_empty _); [apply keeps_ret|]. apply keeps_bind; [apply keeps_save|intros _; apply keeps_save].
Qed.

Section ready.
  Context {S : Type} (o : outside S).
  Notation st := (setting_of o).
  Local Notation codec := (codec o).

  Lemma in_history_run {A : Type} (p : path) (m : io hdir A) k fs r k' fs' :
    codec -> is_directory fs p = true -> keeps (has_all (history_at o p fs)) m ->
    in_history o p m (k, fs) = (r, (k', fs')) ->
    m (k, history_at o p fs) = (r, (k', history_at o p fs')).
  Proof.
    intros [Hde Hempty] Hdir Hm. unfold in_history. rewrite Hdir.
    destruct (m (k, history_at o p fs)) as [r0 [k0 d0]] eqn:Hrun. intros [= <- <- <-].
    rewrite history_at_store; [done|done|done|].
    specialize (Hm k (history_at o p fs) (fun f H => H)). by rewrite Hrun in Hm.
  Qed.

  Lemma stage_refines cwd name p k w r k' w' :
    codec -> profile_at st (files w) cwd name p -> is_directory (files w) (p_history p) = true ->
    cmd_stage o cwd name (k, w) = (r, (k', w')) ->
    stage (listing_of o) (order_source o) (order_target o)
      (load_definitions o (below (p_definitions p) (files w))) (k, history_at o (p_history p) (files w))
    = (r, (k', history_at o (p_history p) (files w'))).
  Proof.
    intros Hc Hp Hdir Hm. rewrite (stage_run o cwd name p) in Hm by done.
    apply on_files_run in Hm as [Hm _]. unfold stage_at in Hm. cbn [snd] in Hm.
    eapply in_history_run in Hm; [exact Hm|done|done|apply keeps_stage].
  Qed.
  Lemma reset_refines cwd name p k w r k' w' :
    codec -> profile_at st (files w) cwd name p -> is_directory (files w) (p_history p) = true ->
    cmd_reset o cwd name (k, w) = (r, (k', w')) ->
    reset (listing_of o) (k, history_at o (p_history p) (files w))
    = (r, (k', history_at o (p_history p) (files w'))).
  Proof.
    intros Hc Hp Hdir Hm. rewrite (reset_run o cwd name p) in Hm by done.
    apply on_files_run in Hm as [Hm _].
    eapply in_history_run in Hm; [exact Hm|done|done|apply keeps_reset].
  Qed.
  Lemma make_refines cwd name version p k w r k' w' :
    codec -> profile_at st (files w) cwd name p -> is_directory (files w) (p_history p) = true ->
    cmd_make o cwd name version (k, w) = (r, (k', w')) ->
    make (listing_of o) (now o) version (k, history_at o (p_history p) (files w))
    = (r, (k', history_at o (p_history p) (files w'))).
  Proof.
    intros Hc Hp Hdir Hm. rewrite (make_run o cwd name version p) in Hm by done.
    apply on_files_run in Hm as [Hm _].
    eapply in_history_run in Hm; [exact Hm|done|done|apply keeps_make].
  Qed.

  (** ** Uninterrupted file operations *)

  Lemma create_all_run (above below : path) k fs :
    (forall q, above `prefix_of` q -> q `prefix_of` above ++ below -> q <> above ->
       fs !! q = Some Directory \/ fs !! q = None) ->
    exists fs', directory_create_all above below (length below + k, fs) = (Ret (), (k, fs')) /\
      (forall q, above `prefix_of` q -> q `prefix_of` above ++ below -> q <> above -> fs' !! q = Some Directory) /\
      (forall q, ~ (above `prefix_of` q /\ q `prefix_of` above ++ below /\ q <> above) -> fs' !! q = fs !! q).
  Proof.
    revert above fs. induction below as [|c below IH]; intros above fs Hq.
    - exists fs. split; [done|]. split; [|done]. intros q H1 H2 Hne. destruct Hne.
      rewrite app_nil_r in H2. by apply (anti_symm prefix).
    - assert (Hstep : forall q, (above ++ [c]) `prefix_of` q ->
        above `prefix_of` q /\ q <> above).
      { intros q Hp. split; [etransitivity; [|exact Hp]; by apply prefix_app_r|].
        intros ->. apply prefix_length in Hp. rewrite app_length in Hp. simpl in Hp. lia. }
      assert (Hc : above ++ [c] <> []) by (by destruct above).
      assert (Hhere : fs !! (above ++ [c]) = Some Directory \/ fs !! (above ++ [c]) = None).
      { apply Hq; [by apply prefix_app_r|exists below; by rewrite <- app_assoc|by apply Hstep]. }
      cbn [directory_create_all length Nat.add].
      set (fs1 := <[above ++ [c] := Directory]> fs).
      assert (Hrun : directory_create (above ++ [c]) (Datatypes.S (length below + k), fs)
                     = (Ret (), (length below + k, fs1))).
      { unfold directory_create, istep, is_directory. rewrite bool_decide_false by done. cbn [orb].
        destruct Hhere as [Hh|Hh].
        - rewrite bool_decide_true by done. unfold fs1. by rewrite insert_id.
        - rewrite bool_decide_false by (rewrite Hh; discriminate). by rewrite Hh. }
      unfold ibind. rewrite Hrun.
      destruct (IH (above ++ [c]) fs1) as (fs' & Hr & Hin & Hout).
      { intros q H1 H2 Hne. unfold fs1. rewrite lookup_insert_ne by done.
        destruct (Hstep q H1). apply Hq; [done| |done]. by rewrite <- app_assoc in H2. }
      exists fs'. split; [exact Hr|]. split.
      + intros q H1 H2 Hne. destruct (decide (q = above ++ [c])) as [->|Hqc].
        * rewrite Hout; [unfold fs1; by rewrite lookup_insert|]. by intros (_ & _ & []).
        * apply Hin; [|by rewrite <- app_assoc|done].
          destruct H1 as [[|x t] ->]; [by rewrite app_nil_r in Hne|].
          apply prefix_app_inv in H2. apply prefix_cons_inv_1 in H2 as ->.
          exists t. by rewrite <- app_assoc.
      + intros q Hn. destruct (decide (q = above ++ [c])) as [->|Hqc].
        * destruct Hn. split; [by apply prefix_app_r|]. split; [exists below; by rewrite <- app_assoc|].
          by apply Hstep.
        * rewrite Hout.
          -- unfold fs1. by rewrite lookup_insert_ne.
          -- intros (H1 & H2 & H3). apply Hn. destruct (Hstep q H1). split; [done|]. split; [|done].
             by rewrite <- app_assoc in H2.
  Qed.
  Lemma write_run q b k fs :
    is_directory fs (take (pred (length q)) q) = true -> fs !! q <> Some Directory ->
    file_write q b (2 + k, fs) = (Ret (), (k, <[q := Bytes b]> fs)).
  Proof.
    intros Hd Hq. unfold file_write, ibind, istep, file_create. cbn [Nat.add]. rewrite Hd.
    destruct (fs !! q) as [[|]|] eqn:Hn; [done| |]; by rewrite insert_insert.
  Qed.
  Lemma parent_snoc (p : path) (x : str) : take (pred (length (p ++ [x]))) (p ++ [x]) = p.
  Proof. rewrite app_length. cbn [length]. rewrite Nat.add_comm. cbn [Nat.add pred]. apply take_app. Qed.
  Lemma is_directory_some fs (p : path) : fs !! p = Some Directory -> is_directory fs p = true.
  Proof. intros H. unfold is_directory. rewrite H. by rewrite orb_true_iff, !bool_decide_eq_true; right. Qed.
  Lemma exists_is_directory fs cwd : exists_dir fs cwd -> is_directory fs cwd = true.
  Proof.
    intros H. destruct (decide (cwd = [])) as [->|Hne]; [done|]. apply is_directory_some. by apply H.
  Qed.

  Definition public_db : database := (apply_all (v_changes new_init) database_new).1.
  Lemma public_db_ok : apply_all (v_changes new_init) database_new = (public_db, Ok ()).
  Proof. vm_compute. reflexivity. Qed.
  Lemma public_db_wf : wf_db public_db.
  Proof. apply (bool_decide_unpack _). vm_compute. exact I. Qed.
  Lemma public_db_saves dc : exists m, save_document (dc_save_order dc) public_db = Done m.
  Proof.
    destruct (save_load (dc_save_order dc) (dc_save_order dc) public_db) as (m & H & _); [apply public_db_wf| | |by exists m];
      apply (bool_decide_unpack _); vm_compute; exact I.
  Qed.
  Definition public_text (dc : documents) : str :=
    match saved_text dc public_db with Ret text => text | _ => [] end.
  Lemma public_text_saved dc : saved_text dc public_db = Ret (public_text dc).
  Proof.
    unfold public_text, saved_text. destruct (public_db_saves dc) as [m H]. by rewrite H.
  Qed.
  (** The definitions after init. *)
  Lemma public_loads dc : reads_back dc ->
    load_definition_files dc (<[[L "public.yaml"] := Bytes (public_text dc)]> (<[[] := Directory]> ∅)) = Ret public_db.
  Proof.
    intros Hb. destruct (saved_text_loads dc public_db Hb public_db_wf) as (text & Ht & Hd);
      [apply (bool_decide_unpack _); vm_compute; exact I..|].
    rewrite public_text_saved in Ht. injection Ht as Ht. rewrite Ht.
    apply (load_only dc _ [L "public.yaml"] text); [|apply public_db_wf| |exact Hd].
    - rewrite lookup_insert_ne by done. apply lookup_insert.
    - intros q t. split.
      + intros (Hq & _). apply lookup_insert_Some in Hq as [[<- [= <-]]|[_ Hq]]; [done|].
        apply lookup_insert_Some in Hq as [[<- [=]]|[_ Hq]]. by rewrite lookup_empty in Hq.
      + intros [-> ->]. split; [apply lookup_insert|]. split.
        * exists [], (L "public.yaml"). split; [done|]. exists (L "public"). by split.
        * intros r Hr Hne. destruct r as [|x r]; [rewrite lookup_insert_ne by done; apply lookup_insert|].
          apply prefix_cons_inv_1 in Hr as Hx. apply prefix_cons_inv_2, prefix_nil_inv in Hr. by subst.
  Qed.

  Lemma init_history_run k :
    init_history (4 + k, ∅) =
    (Ret (), (k, <[L "stage.yaml" := Document (new_stage (L "init"))]> (<[L "init.yaml" := Document new_init]> ∅))).
  Proof.
    assert (Ha : 47%N ∉ v_name new_init) by (apply (bool_decide_unpack _); vm_compute; exact I).
    assert (Hb : 47%N ∉ v_name (new_stage (v_name new_init))) by (apply (bool_decide_unpack _); vm_compute; exact I).
    unfold init_history, save_version, ibind, istep. cbn [Nat.add].
    rewrite decide_False by exact Ha. rewrite lookup_empty. rewrite decide_False by exact Hb.
    rewrite !insert_insert.
    change (version_file (v_name new_init)) with (L "init.yaml").
    change (version_file (v_name (new_stage (v_name new_init)))) with (L "stage.yaml").
    rewrite lookup_insert_ne by discriminate. by rewrite lookup_empty, insert_insert.
  Qed.

  (** init in a directory that has none of the files it writes. *)
  Lemma init_run cwd k fs :
    reads_base o -> codec -> exists_dir fs cwd ->
    (forall proj, discover_project st fs cwd <> Ret proj) ->
    (forall q, config cwd `prefix_of` q -> fs !! q = None) ->
    (forall q, (cwd ++ [L "database"]) `prefix_of` q -> fs !! q = None) ->
    exists fs', cmd_init o cwd (12 + 2 * length cwd + k, fs) = (Ret (), (k, fs')) /\
      fs' !! config cwd = Some (Bytes (st_print st base_yaml_project)) /\
      is_directory fs' (cwd ++ [L "database"; L "history"]) = true /\
      history_at o (cwd ++ [L "database"; L "history"]) fs' =
        <[L "stage.yaml" := Document (new_stage (L "init"))]> (<[L "init.yaml" := Document new_init]> ∅) /\
      below (cwd ++ [L "database"; L "definitions"]) fs' =
        <[[L "public.yaml"] := Bytes (public_text (documents_of o))]> (<[[] := Directory]> ∅).
  Proof.
    intros Hbase Hcodec Hcwd Hdisc Hconf Hdb.
    set (h := cwd ++ [L "database"; L "history"]).
    set (df := cwd ++ [L "database"; L "definitions"]).
    assert (Hlh : length h = 2 + length cwd) by (unfold h; rewrite app_length; simpl; lia).
    assert (Hld : length df = 2 + length cwd) by (unfold df; rewrite app_length; simpl; lia).
    assert (Hconfig_db : forall q, (cwd ++ [L "database"]) `prefix_of` q -> q <> config cwd).
    { intros q Hp ->. unfold config in Hp. apply prefix_app_inv in Hp.
      apply prefix_cons_inv_1 in Hp. discriminate Hp. }
    (* the configuration *)
    set (fs1 := <[config cwd := Bytes (st_print st base_yaml_project)]> fs).
    set (k1 := length h + (length df + (4 + (2 + k)))).
    assert (Hk : 12 + 2 * length cwd + k = 2 + k1) by (unfold k1; rewrite Hlh, Hld; lia).
    assert (H1 : file_write (config cwd) (st_print st base_yaml_project) (2 + k1, fs) = (Ret (), (k1, fs1))).
    { apply write_run; [|rewrite Hconf by done; discriminate]. unfold config. rewrite parent_snoc.
      by apply exists_is_directory. }
    (* the directories *)
    assert (Hup : forall x q, q `prefix_of` cwd ++ [L "database"; x] -> q <> [] ->
      q `prefix_of` cwd /\ fs !! q = Some Directory \/ (cwd ++ [L "database"]) `prefix_of` q /\ fs !! q = None).
    { intros x q Hq Hne. apply prefix_of_cwd in Hq as [Hq|Hq]; [left|right]; (split; [done|]); [by apply Hcwd|by apply Hdb]. }
    assert (Habove : forall q : path, q `prefix_of` cwd -> q <> config cwd).
    { intros q Hq ->. apply prefix_length in Hq. unfold config in Hq. rewrite app_length in Hq. simpl in Hq. lia. }
    destruct (create_all_run [] h (length df + (4 + (2 + k))) fs1) as (fs2 & H2 & Hin2 & Hout2).
    { intros q _ Hq Hne. unfold fs1. destruct (Hup (L "history") q Hq Hne) as [[Hp Hd]|[Hp Hd]];
        rewrite lookup_insert_ne by (intros Hc; symmetry in Hc; revert Hc; first [by apply Habove|by apply Hconfig_db]);
        [by left|by right]. }
    destruct (create_all_run [] df (4 + (2 + k)) fs2) as (fs3 & H3 & Hin3 & Hout3).
    { intros q _ Hq Hne.
      destruct (decide (q `prefix_of` h)) as [Hqh|Hqh]; [left; apply Hin2; [by apply prefix_nil|exact Hqh|exact Hne]|].
      rewrite Hout2 by (intros (_ & Hc & _); by apply Hqh).
      unfold fs1. destruct (Hup (L "definitions") q Hq Hne) as [[Hp Hd]|[Hp Hd]];
        rewrite lookup_insert_ne by (intros Hc; symmetry in Hc; revert Hc; first [by apply Habove|by apply Hconfig_db]);
        [by left|by right]. }
    (* the history *)
    assert (Hhd : h <> []) by (unfold h; by destruct cwd).
    assert (Hdd : df <> []) by (unfold df; by destruct cwd).
    assert (Hh3 : fs3 !! h = Some Directory).
    { destruct (decide (h `prefix_of` df)) as [Hp|Hp]; [by apply Hin3; [apply prefix_nil|exact Hp|exact Hhd]|].
      rewrite Hout3 by (intros (_ & Hc & _); by apply Hp). by apply Hin2; [apply prefix_nil| |exact Hhd]. }
    assert (Hfresh : forall (p : path) q, (cwd ++ [L "database"]) `prefix_of` p -> p `prefix_of` q -> q <> p ->
      (p = h \/ p = df) -> fs3 !! q = None).
    { intros p q Hp Hq Hne Hor.
      assert (Hqd : (cwd ++ [L "database"]) `prefix_of` q) by (by etransitivity).
      assert (Hlen : length q > 2 + length cwd).
      { destruct Hq as [[|x t] ->]; [by rewrite app_nil_r in Hne|]. rewrite app_length. simpl.
        destruct Hor as [-> | ->]; lia. }
      rewrite Hout3 by (intros (_ & Hc & _); cbn [app] in Hc; apply prefix_length in Hc; lia).
      rewrite Hout2 by (intros (_ & Hc & _); cbn [app] in Hc; apply prefix_length in Hc; lia).
      unfold fs1. rewrite lookup_insert_ne by (intros Hc; symmetry in Hc; by apply (Hconfig_db q)).
      by apply Hdb. }
    assert (Hph : (cwd ++ [L "database"]) `prefix_of` h) by (exists [L "history"]; unfold h; by rewrite <- app_assoc).
    assert (Hpd : (cwd ++ [L "database"]) `prefix_of` df) by (exists [L "definitions"]; unfold df; by rewrite <- app_assoc).
    assert (Hempty : history_at o h fs3 = ∅).
    { apply map_eq. intros f. rewrite lookup_history_at, lookup_empty.
      rewrite (Hfresh h (h ++ [f])); [done|done|by apply prefix_app_r| |by left].
      intros Hc. apply (f_equal length) in Hc. rewrite app_length in Hc. simpl in Hc. lia. }
    set (d := <[L "stage.yaml" := Document (new_stage (L "init"))]> (<[L "init.yaml" := Document new_init]> (∅ : hdir))).
    set (fs4 := store o h ∅ d fs3).
    assert (H4 : in_history o h init_history (4 + (2 + k), fs3) = (Ret (), (2 + k, fs4))).
    { unfold in_history. rewrite is_directory_some by done. rewrite Hempty, init_history_run. reflexivity. }
    (* the definitions *)
    assert (Hhp : forall q, df `prefix_of` q -> forall f, q <> h ++ [f]).
    { intros q Hq f ->. unfold df, h in Hq. rewrite <- app_assoc in Hq. apply prefix_app_inv in Hq.
      apply prefix_cons_inv_2 in Hq. apply prefix_cons_inv_1 in Hq. discriminate Hq. }
    assert (Hd4 : fs4 !! df = Some Directory).
    { unfold fs4. rewrite lookup_store_out by (by apply Hhp). by apply Hin3; [apply prefix_nil| |exact Hdd]. }
    assert (Hpub : forall q, df `prefix_of` q -> q <> df -> fs4 !! q = None).
    { intros q Hq Hne. unfold fs4. rewrite lookup_store_out by (by apply Hhp). apply (Hfresh df); auto. }
    set (pub := df ++ [L "public.yaml"]).
    assert (Hpne : pub <> df).
    { unfold pub. intros Hc. apply (f_equal length) in Hc. rewrite app_length in Hc. simpl in Hc. lia. }
    set (fs5 := <[pub := Bytes (public_text (documents_of o))]> fs4).
    assert (H5 : save_snapshot o pub public_db (2 + k, fs4) = (Ret (), (k, fs5))).
    { unfold save_snapshot, ibind at 1, iread at 1. rewrite public_text_saved.
      apply write_run; [unfold pub; rewrite parent_snoc; by apply is_directory_some|].
      rewrite Hpub; [discriminate|by apply prefix_app_r|done]. }
    (* everything *)
    exists fs5. split.
    { rewrite Hk. unfold cmd_init. unfold ibind at 1. cbn [snd].
      assert (Hrest : forall B (x : exec project) (a b : B), (forall proj, x <> Ret proj) ->
        match x with Ret _ => a | _ => b end = b) by (intros B x a b Hx; destruct x; [by edestruct Hx|done..]).
      rewrite Hrest by done. unfold initialize_project. unfold ibind at 1. unfold ibind at 1.
      change (cwd ++ [CONFIG_FILE]) with (config cwd). rewrite H1. cbn [unwrapped].
      unfold iread at 1. unfold load_project_from_str. rewrite Hbase.
      unfold ibind at 1, iread at 1. unfold resolve_default_history_dir, resolve_history_dir, DEFAULT_PROFILE.
      rewrite base_loaded. unfold ebind at 1. cbn [p_history base_profile]. fold h.
      unfold ibind at 1, iread at 1. unfold resolve_default_definitions_dir, resolve_definitions_dir, DEFAULT_PROFILE.
      rewrite base_loaded. unfold ebind at 1. cbn [p_definitions base_profile]. fold df.
      unfold ibind at 1. unfold k1. rewrite H2. unfold ibind at 1. rewrite H3.
      unfold ibind at 1, iread at 1. rewrite public_db_ok.
      change (apply_all (v_changes (new_stage (v_name new_init))) public_db) with (public_db, @Ok () ()).
      cbv iota beta. unfold ibind at 1. rewrite H4. fold pub. exact H5. }
    assert (Hpub_out : forall q, q <> pub -> fs5 !! q = fs4 !! q)
      by (intros q Hq; unfold fs5; by rewrite lookup_insert_ne).
    assert (Hh5 : same_at h fs4 fs5).
    { intros q Hq. symmetry. apply Hpub_out. intros ->. unfold pub, df, h in Hq. rewrite <- app_assoc in Hq.
      apply prefix_app_inv in Hq. apply prefix_cons_inv_2 in Hq. apply prefix_cons_inv_1 in Hq. discriminate Hq. }
    assert (Hnoc : forall f, config cwd <> h ++ [f]).
    { intros f Hc. apply (f_equal length) in Hc. unfold config in Hc. rewrite !app_length in Hc.
      unfold h in Hc. rewrite app_length in Hc. simpl in Hc. lia. }
    assert (Hcp : forall x, ~ config cwd `prefix_of` cwd ++ [L "database"; x]).
    { intros x Hc. unfold config in Hc. apply prefix_app_inv in Hc. apply prefix_cons_inv_1 in Hc. discriminate Hc. }
    split.
    { rewrite Hpub_out.
      - unfold fs4. rewrite lookup_store_out by done.
        rewrite Hout3 by (intros (_ & Hc & _); by apply (Hcp (L "definitions"))).
        rewrite Hout2 by (intros (_ & Hc & _); by apply (Hcp (L "history"))).
        unfold fs1. by rewrite lookup_insert.
      - intros Hc. apply (f_equal length) in Hc. unfold config, pub in Hc. rewrite !app_length in Hc.
        unfold df in Hc. rewrite app_length in Hc. simpl in Hc. lia. }
    split.
    { rewrite <- (is_directory_same h fs4 fs5 Hh5). apply is_directory_some. unfold fs4.
      rewrite lookup_store_out; [done|]. intros f Hc. apply (f_equal length) in Hc.
      rewrite app_length in Hc. simpl in Hc. lia. }
    split.
    { rewrite <- (history_at_same o h fs4 fs5 Hh5). unfold fs4. rewrite <- Hempty.
      apply history_at_store; [apply Hcodec|apply Hcodec|]. intros f. rewrite Hempty, lookup_empty.
      by intros [? ?]. }
    apply map_eq. intros q. rewrite lookup_below.
    destruct (decide (q = [L "public.yaml"])) as [->|Hq].
    { rewrite lookup_insert. fold pub. unfold fs5. by rewrite lookup_insert. }
    rewrite lookup_insert_ne by done.
    rewrite Hpub_out by (unfold pub; intros Hc; by apply app_inv_head in Hc).
    destruct (decide (q = [])) as [->|Hq0].
    { rewrite lookup_insert, app_nil_r. exact Hd4. }
    rewrite lookup_insert_ne by done. rewrite lookup_empty. apply Hpub; [by exists q|].
    intros Hc. rewrite <- (app_nil_r df) in Hc at 2. by apply app_inv_head in Hc.
  Qed.
  Lemma init_discovers cwd fs' :
    reads_base o -> fs' !! config cwd = Some (Bytes (st_print st base_yaml_project)) ->
    profile_at st fs' cwd (L "database") (base_profile cwd).
  Proof.
    intros Hbase Hc. apply profile_at_spec.
    exists (Project cwd (load_profile st cwd <$> st_order st base_yaml_project)).
    split; [|apply base_loaded]. apply discover_ret. exists cwd, base_yaml_project. split; [|done].
    split.
    - split; [split; [done|by rewrite Hc]|]. intros dir' [Hp _]. done.
    - exists (st_print st base_yaml_project). done.
  Qed.
End ready.
