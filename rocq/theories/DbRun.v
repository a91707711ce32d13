(** Running the migration commands. *)
From Verif Require Import Base Text Types Changes Sql History SpecHistory HistoryLemmas HistoryLoad HistoryProofs Dbh SpecDb DbLemmas.
From stdpp Require Import sorting.

(** ** All or nothing *)
Section keeps.
  Context {S : Type} (sem : str -> S -> option S) (ident : str -> option str).
  Definition keeps {A} (m : io (session S) A) : Prop := forall p, committed (m p).2.2 = committed p.2.
  Lemma keeps_ret {A} (a : A) : keeps (iret a).
  Proof. by intros []. Qed.
  Lemma keeps_read {A} (f : session S -> exec A) : keeps (iread f).
  Proof. by intros []. Qed.
  Lemma keeps_step {A} (f : session S -> exec A * session S) :
    (forall s, committed (f s).2 = committed s) -> keeps (istep f).
  Proof. intros H [[|k] s]; [done|]. simpl. specialize (H s). by destruct (f s). Qed.
  Lemma keeps_bind {A B} (m : io (session S) A) (g : A -> io (session S) B) :
    keeps m -> (forall a, keeps (g a)) -> keeps (ibind m g).
  Proof.
    intros Hm Hg p. specialize (Hm p). unfold ibind. destruct (m p) as [[a|e| | |] p']; simpl in *; [|done..].
    by rewrite Hg.
  Qed.
  Lemma keeps_unwrap {A} (m : io (session S) A) : keeps m -> keeps (iunwrap m).
  Proof. intros H p. specialize (H p). unfold iunwrap. by destruct (m p). Qed.
  Lemma keeps_on_table {A} schema (f : vtable -> exec A * vtable) : keeps (on_table ident schema f).
  Proof.
    apply keeps_step. intros s. destruct (ident schema); [|done]. destruct (pg_schemas _ !! _) as [[t|]|]; [|done..].
    by destruct (f t).
  Qed.
  Lemma keeps_execute stmt : keeps (execute sem stmt).
  Proof. apply keeps_step. intros s. by destruct (sem stmt _). Qed.
  Lemma keeps_exists schema : keeps (@meta_schema_exists S schema).
  Proof. by apply keeps_step. Qed.
  Lemma keeps_ensure schema : keeps (@ensure_initialized S ident schema).
  Proof.
    apply keeps_bind; [apply keeps_exists|]. intros []; [apply keeps_ret|].
    apply keeps_bind; [|intros _; apply keeps_bind; [|intros _; apply keeps_on_table]].
    - apply keeps_step. intros s. destruct (ident schema); [|done]. by destruct (pg_schemas _ !! _).
    - apply keeps_step. intros s. destruct (ident schema); [|done]. by destruct (pg_schemas _ !! _) as [[]|].
  Qed.
  Lemma keeps_current schema : keeps (@db_current_version S ident schema).
  Proof. apply keeps_bind; [apply keeps_exists|]. intros []; [apply keeps_on_table|apply keeps_read]. Qed.
  Lemma keeps_execute_all stmts : keeps (execute_all sem stmts).
  Proof.
    induction stmts as [|stmt stmts IH]; [apply keeps_ret|]. simpl.
    apply keeps_bind; [apply keeps_unwrap, keeps_execute|done].
  Qed.
  Lemma keeps_apply d schema names : keeps (apply_versions sem ident d schema names).
  Proof.
    induction names as [|n names IH]; [apply keeps_ret|]. simpl. apply keeps_bind; [apply keeps_read|]. intros v.
    apply keeps_bind; [apply keeps_execute_all|]. intros _.
    apply keeps_bind; [apply keeps_unwrap, keeps_on_table|done].
  Qed.
  Lemma keeps_revert schema names : keeps (revert_versions sem ident schema names).
  Proof.
    induction names as [|n names IH]; [apply keeps_ret|]. simpl.
    apply keeps_bind; [apply keeps_unwrap, keeps_on_table|]. intros v.
    apply keeps_bind; [apply keeps_execute_all|]. intros _.
    apply keeps_bind; [apply keeps_unwrap, keeps_on_table|done].
  Qed.

  (** Commands keep the committed state unless they succeed. *)
  Definition careful (m : io (session S) ()) : Prop := forall p, (m p).1 <> Ret () -> committed (m p).2.2 = committed p.2.
  Lemma careful_keeps m : keeps m -> careful m.
  Proof. intros H p _. apply H. Qed.
  Lemma careful_commit : careful (commit sem).
  Proof. intros [[|k] s]; [done|]. unfold commit, istep. simpl. destruct (sem _ _); [by intros []|done]. Qed.
  Lemma careful_bind {A} (m : io (session S) A) g : keeps m -> (forall a, careful (g a)) -> careful (ibind m g).
  Proof.
    intros Hm Hg p. specialize (Hm p). unfold ibind. destruct (m p) as [[a|e| | |] p']; simpl in *; [|done..].
    intros H. by rewrite Hg.
  Qed.
  Lemma careful_up l d schema version : careful (up sem ident l d schema version).
  Proof.
    apply careful_bind; [apply keeps_read|]. intros h. apply careful_bind; [apply keeps_ensure|]. intros _.
    apply careful_bind; [apply keeps_current|]. intros c. apply careful_bind; [apply keeps_read|]. intros to.
    apply careful_bind; [apply keeps_read|]. intros [|n names]; [apply careful_keeps, keeps_ret|].
    apply careful_bind; [apply keeps_apply|]. intros _. apply careful_commit.
  Qed.
  Lemma keeps_range schema from to : keeps (@get_downward_range S ident schema from to).
  Proof.
    apply keeps_bind; [apply keeps_on_table|]. intros f. apply keeps_bind; [apply keeps_on_table|]. intros t.
    destruct f; [|apply keeps_read]. destruct t; [apply keeps_on_table|apply keeps_read].
  Qed.
  Lemma careful_down schema version : careful (down sem ident schema version).
  Proof.
    apply careful_bind; [apply keeps_ensure|]. intros _. apply careful_bind; [apply keeps_current|]. intros c.
    destruct (match version with Some v => Some v | None => _ end); [|apply careful_keeps, keeps_ret].
    apply careful_bind; [apply keeps_range|]. intros [|n names]; [apply careful_keeps, keeps_ret|].
    apply careful_bind; [apply keeps_revert|]. intros _. apply careful_commit.
  Qed.

  Lemma rolled_back_contents (s : session S) : same_contents (committed s) (rolled_back s).
  Proof.
    split; [done|]. intros n. simpl. rewrite map_lookup_imap. destruct (pg_schemas (committed s) !! n) as [[t|]|]; simpl; [|done..].
    by destruct (pg_schemas (working s) !! n) as [[t'|]|].
  Qed.
  Lemma all_or_nothing m k db r db' :
    careful m -> run m k db = (r, db') -> r <> Ret () -> same_contents db db'.
  Proof.
    unfold run. intros Hm. specialize (Hm (k, Session db db)). destruct (m _) as [x [k' s]]. simpl in Hm.
    intros [= <- <-] Hr. specialize (Hm Hr). rewrite <- Hm. apply rolled_back_contents.
  Qed.
  (** The table a failed command leaves: the same rows. *)
  Lemma same_contents_table (db db' : pg S) schema t :
    same_contents db db' -> has_table db schema t -> exists t', has_table db' schema t' /\ t_rows t' = t_rows t.
  Proof.
    intros [_ H] Ht. specialize (H schema). unfold has_table in *. rewrite Ht in H. simpl in H.
    destruct (pg_schemas db' !! schema) as [[t'|]|]; simpl in H; try done. injection H as H. by exists t'.
  Qed.
  Lemma same_contents_sym (db db' : pg S) : same_contents db db' -> same_contents db' db.
  Proof. intros [H1 H2]. by split. Qed.
  Lemma same_contents_trans (a b c : pg S) : same_contents a b -> same_contents b c -> same_contents a c.
  Proof. intros [H1 H2] [H3 H4]. split; [congruence|]. intros n. by rewrite H2. Qed.
  Lemma same_contents_fresh (db db' : pg S) schema :
    same_contents db db' -> pg_schemas db !! schema = None -> pg_schemas db' !! schema = None.
  Proof. intros [_ H] Hn. specialize (H schema). rewrite Hn in H. by destruct (pg_schemas db' !! schema). Qed.
End keeps.

(** ** Step by step *)
Definition is_ret {A} (r : exec A) : bool := match r with Ret _ => true | _ => false end.
Section steps.
  Context {S : Type} (sem : str -> S -> option S) (ident : str -> option str) (schema : str) (db : pg S).
  Hypothesis Hident : ident schema = Some schema.

  (** The transaction once the version table exists. *)
  Definition W (u : S) (t : vtable) : session S := Session db (Pg u (<[schema := Some t]> (pg_schemas db))).

  (** Outcomes: killed; or as said. *)
  Definition killed {A} (x : exec A * (nat * session S)) : Prop := x.1 = Killed.

  Lemma bind_killed {A B} (m : io (session S) A) (g : A -> io (session S) B) p : killed (m p) -> killed (ibind m g p).
  Proof. unfold killed, ibind. destruct (m p) as [r q]. simpl. by intros ->. Qed.
  Lemma bind_ret {A B} (m : io (session S) A) (g : A -> io (session S) B) p a q :
    m p = (Ret a, q) -> ibind m g p = g a q.
  Proof. unfold ibind. by intros ->. Qed.
  Lemma bind_other {A B} (m : io (session S) A) (g : A -> io (session S) B) p :
    is_ret (m p).1 = false -> is_ret (ibind m g p).1 = false.
  Proof. unfold ibind. by destruct (m p) as [[] q]. Qed.
  Lemma bind_abort {A B} (m : io (session S) A) (g : A -> io (session S) B) p :
    (m p).1 = Abort -> (ibind m g p).1 = Abort.
  Proof. unfold ibind. destruct (m p) as [r q]. simpl. by intros ->. Qed.
  Lemma bind_raise {A B} (m : io (session S) A) (g : A -> io (session S) B) p e :
    (m p).1 = Raise e -> (ibind m g p).1 = Raise e.
  Proof. unfold ibind. destruct (m p) as [r q]. simpl. by intros ->. Qed.

  Lemma on_table_step {A} (f : vtable -> exec A * vtable) k u t :
    on_table ident schema f (Datatypes.S k, W u t) = ((f t).1, (k, W u (f t).2)).
  Proof.
    unfold on_table, istep, W. rewrite Hident. simpl. rewrite lookup_insert. destruct (f t) as [r t']. simpl.
    by rewrite insert_insert.
  Qed.
  Lemma on_table_killed {A} (f : vtable -> exec A * vtable) s : killed (on_table ident schema f (0, s)).
  Proof. done. Qed.
  Lemma ask_step {A} (f : list row -> exec A) k u t :
    ask_table ident schema f (Datatypes.S k, W u t) = (f (t_rows t), (k, W u t)).
  Proof. unfold ask_table. by rewrite on_table_step. Qed.
  Lemma exists_step k u t : meta_schema_exists schema (Datatypes.S k, W u t) = (Ret true, (k, W u t)).
  Proof. unfold meta_schema_exists, istep, W. simpl. rewrite lookup_insert. done. Qed.

  Definition fresh_table : vtable := VTable [Row new_init 1] 2.
  Lemma ensure_found k t :
    finds db schema t ->
    killed (ensure_initialized ident schema (k, Session db db)) \/
    exists k', ensure_initialized ident schema (k, Session db db) = (Ret (), (k', W (pg_user db) t)).
  Proof.
    intros [Ht|[Hn ->]]; unfold ensure_initialized.
    - destruct k as [|k]; [by left|]. right. exists k. erewrite bind_ret.
      2: { unfold meta_schema_exists, istep. simpl. rewrite Ht. done. }
      unfold W. unfold has_table in Ht. rewrite (insert_id _ _ _ Ht). by destruct db.
    - destruct k as [|k]; [by left|]. erewrite bind_ret.
      2: { unfold meta_schema_exists, istep. simpl. rewrite Hn. done. }
      change (bool_decide (is_Some None)) with false. cbv iota. unfold create_meta_schema.
      destruct k as [|k]; [by left|]. erewrite bind_ret.
      2: { unfold create_schema, istep. rewrite Hident. simpl. rewrite Hn. done. }
      destruct k as [|k]; [by left|]. erewrite bind_ret.
      2: { unfold create_table, istep. rewrite Hident. simpl. rewrite lookup_insert. done. }
      destruct k as [|k]; [by left|]. right. exists k. rewrite insert_insert.
      change (Session _ _) with (W (pg_user db) (VTable [] 1)). unfold record_version. rewrite on_table_step.
      assert (insert_row new_init (VTable [] 1) = (Ret (), fresh_table)) as -> by (vm_compute; reflexivity). done.
  Qed.
  Lemma ensure_not_found k :
    (forall t, ~ finds db schema t) ->
    ensure_initialized ident schema (k, Session db db) = (Killed, (0, Session db db)) \/
    exists k', ensure_initialized ident schema (k, Session db db) = (Ret (), (k', Session db db)).
  Proof.
    intros H. unfold ensure_initialized. destruct k as [|k]; [by left|]. right. exists k. erewrite bind_ret.
    2: { unfold meta_schema_exists, istep. simpl. done. }
    destruct (pg_schemas db !! schema) as [o|] eqn:E; [done|]. exfalso. apply (H fresh_table). by right.
  Qed.
  Lemma found_cases : (exists t, finds db schema t) \/ (forall t, ~ finds db schema t) /\ pg_schemas db !! schema = Some None.
  Proof.
    destruct (pg_schemas db !! schema) as [[t|]|] eqn:E.
    - left. exists t. by left.
    - right. split; [|done]. intros t [K|[K _]]; unfold has_table in *; congruence.
    - left. eexists. right. by split.
  Qed.
  Lemma finds_unique t t' : finds db schema t -> finds db schema t' -> t = t'.
  Proof. unfold finds, has_table. intros [H|[H ->]] [H'|[H' ->]]; congruence. Qed.

  Lemma current_step k u t :
    killed (db_current_version ident schema (k, W u t)) \/
    exists k', db_current_version ident schema (k, W u t) =
      (match newest_first (t_rows t) with r :: _ => Ret (r_version r) | [] => Raise DbError end, (k', W u t)).
  Proof.
    unfold db_current_version. destruct k as [|k]; [by left|]. erewrite bind_ret by apply exists_step. cbv iota.
    destruct k as [|k]; [by left|]. right. exists k. by rewrite ask_step.
  Qed.

  (** What both commands start with. *)
  Lemma prelude {A} (g : version -> io (session S) A) k :
    killed ((do _ <- ensure_initialized ident schema; do c <- db_current_version ident schema; g c) (k, Session db db)) \/
    (exists t cur rest k1, finds db schema t /\ newest_first (t_rows t) = cur :: rest /\
      (do _ <- ensure_initialized ident schema; do c <- db_current_version ident schema; g c) (k, Session db db) =
      g (r_version cur) (k1, W (pg_user db) t)) \/
    ((forall t cur, finds db schema t -> ~ newest (t_rows t) cur) /\
     ((do _ <- ensure_initialized ident schema; do c <- db_current_version ident schema; g c) (k, Session db db)).1 = Raise DbError).
  Proof.
    destruct found_cases as [[t Ht]|[Hno Hn]].
    - destruct (ensure_found k t Ht) as [K|[k1 E]]; [left; by apply bind_killed|]. rewrite (bind_ret _ _ _ _ _ E).
      destruct (current_step k1 (pg_user db) t) as [K|[k2 E2]]; [left; by apply bind_killed|].
      destruct (newest_first (t_rows t)) as [|cur rest] eqn:En.
      + right. right. split; [|apply bind_raise; by rewrite E2].
        intros t' cur Ht' [Hc _]. rewrite (finds_unique _ _ Ht' Ht) in Hc.
        pose proof (newest_first_perm (t_rows t)) as Hp. rewrite En in Hp. rewrite <- Hp in Hc. by apply elem_of_nil in Hc.
      + right. left. exists t, cur, rest, k2. split; [done|]. split; [done|]. by rewrite (bind_ret _ _ _ _ _ E2).
    - destruct (ensure_not_found k Hno) as [K|[k1 E]]; [left; apply bind_killed; unfold killed; by rewrite K|].
      rewrite (bind_ret _ _ _ _ _ E). unfold db_current_version.
      destruct k1 as [|k1]; [by left|]. destruct k1 as [|k1].
      + left. apply bind_killed. unfold killed, ibind. simpl. by rewrite Hn.
      + right. right. split; [intros t cur Ht; by destruct (Hno t)|]. apply bind_raise. unfold ibind. simpl. rewrite Hn. simpl.
        rewrite Hident. by rewrite Hn.
  Qed.

  Lemma execute_all_step stmts k u t :
    killed (execute_all sem stmts (k, W u t)) \/
    (exists u' k', runs sem stmts u u' /\ execute_all sem stmts (k, W u t) = (Ret (), (k', W u' t))) \/
    ((forall u', ~ runs sem stmts u u') /\ (execute_all sem stmts (k, W u t)).1 = Abort).
  Proof.
    revert k u. induction stmts as [|stmt stmts IH]; intros k u.
    - right. left. exists u, k. split; [constructor|done].
    - cbn [execute_all]. destruct k as [|k]; [by left|]. destruct (sem stmt u) as [u1|] eqn:E.
      + erewrite bind_ret.
        2: { unfold iunwrap, execute, istep. simpl. rewrite E. done. }
        change (Session _ _) with (W u1 t).
        destruct (IH k u1) as [K|[(u' & k' & H & K)|[H K]]].
        * by left.
        * right. left. exists u', k'. split; [by econstructor|done].
        * right. right. split; [|done]. intros u' (u2 & E' & H')%runs_cons_inv. rewrite E in E'. injection E' as <-. by apply (H u').
      + right. right. split; [intros u' (u2 & E' & H')%runs_cons_inv; congruence|].
        apply bind_abort. unfold iunwrap, execute, istep. simpl. by rewrite E.
  Qed.
  Lemma execute_all_inv stmts k u t q :
    execute_all sem stmts (k, W u t) = (Ret (), q) -> exists u' k', runs sem stmts u u' /\ q = (k', W u' t).
  Proof.
    intros H. destruct (execute_all_step stmts k u t) as [K|[(u' & k' & Hr & K)|[_ K]]].
    - unfold killed in K. by rewrite H in K.
    - rewrite H in K. injection K as ->. eauto.
    - by rewrite H in K.
  Qed.
End steps.
