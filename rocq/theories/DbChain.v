(** Invariants of migrated databases. *)
From Verif Require Import Base Text Types Changes Sql History SpecHistory HistoryLemmas HistoryLoad HistoryProofs
  HistoryRun HistoryClaims Dbh SpecDb DbLemmas DbRun DbSteps DbClaims.
From stdpp Require Import sorting.

(** ** Counters only advance *)
Section grows.
  Context {S : Type} (sem : str -> S -> option S) (ident : str -> option str).
  Definition grown (a b : pg S) : Prop :=
    forall n t, has_table a n t -> exists t', has_table b n t' /\ (t_next t <= t_next t')%Z.
  Lemma grown_refl a : grown a a.
  Proof. intros n t H. exists t. split; [done|lia]. Qed.
  Lemma grown_trans a b c : grown a b -> grown b c -> grown a c.
  Proof. intros H1 H2 n t (t1 & K1 & L1)%H1. destruct (H2 n t1 K1) as (t2 & K2 & L2). exists t2. split; [done|lia]. Qed.
  Definition grows {A} (m : io (session S) A) : Prop := forall p, grown (working p.2) (working (m p).2.2).
  Lemma grows_ret {A} (a : A) : grows (iret a).
  Proof. intros p. apply grown_refl. Qed.
  Lemma grows_read {A} (f : session S -> exec A) : grows (iread f).
  Proof. intros p. apply grown_refl. Qed.
  Lemma grows_step {A} (f : session S -> exec A * session S) :
    (forall s, grown (working s) (working (f s).2)) -> grows (istep f).
  Proof. intros H [[|k] s]; [apply grown_refl|]. simpl. specialize (H s). by destruct (f s). Qed.
  Lemma grows_bind {A B} (m : io (session S) A) (g : A -> io (session S) B) :
    grows m -> (forall a, grows (g a)) -> grows (ibind m g).
  Proof.
    intros Hm Hg p. specialize (Hm p). unfold ibind. destruct (m p) as [[a|e| | |] p']; simpl in *; [|done..].
    eapply grown_trans; [done|]. apply Hg.
  Qed.
  Lemma grows_unwrap {A} (m : io (session S) A) : grows m -> grows (iunwrap m).
  Proof. intros H p. specialize (H p). unfold iunwrap. by destruct (m p). Qed.
  Lemma grows_on_table {A} schema (f : vtable -> exec A * vtable) :
    (forall t, t_next t <= t_next (f t).2)%Z -> grows (on_table ident schema f).
  Proof.
    intros Hf. apply grows_step. intros s. destruct (ident schema) as [n|]; [|apply grown_refl].
    destruct (pg_schemas (working s) !! n) as [[t|]|] eqn:E; [|apply grown_refl..].
    specialize (Hf t). destruct (f t) as [r t']. simpl in *. intros n' t0 H0. unfold has_table in *. simpl.
    destruct (decide (n = n')) as [->|Hne].
    - rewrite lookup_insert. exists t'. split; [done|]. rewrite E in H0. injection H0 as ->. done.
    - rewrite lookup_insert_ne by done. exists t0. split; [done|lia].
  Qed.
  Lemma grows_ask {A} schema (f : list row -> exec A) : grows (ask_table ident schema f).
  Proof. apply grows_on_table. intros t. simpl. lia. Qed.
  Lemma grows_insert schema v : grows (record_version ident schema v).
  Proof.
    apply grows_on_table. intros t. unfold insert_row. destruct (negb _); [simpl; lia|].
    repeat case_decide; simpl; try lia. destruct (v_previous v); [case_decide|]; simpl; lia.
  Qed.
  Lemma grows_delete schema v : grows (delete_version ident schema v).
  Proof. apply grows_on_table. intros t. unfold delete_row. case_decide; simpl; lia. Qed.
  Lemma grows_execute stmt : grows (execute sem stmt).
  Proof. apply grows_step. intros s. destruct (sem stmt _); [|apply grown_refl]. intros n t Ht. exists t. split; [done|lia]. Qed.
  Lemma grows_exists schema : grows (@meta_schema_exists S schema).
  Proof. apply grows_step. intros s. apply grown_refl. Qed.
  Lemma grown_other (a b : pg S) n :
    (forall t, ~ has_table a n t) -> (forall n', n' <> n -> pg_schemas b !! n' = pg_schemas a !! n') -> grown a b.
  Proof.
    intros H1 H2 n' t Ht. unfold has_table in *. destruct (decide (n' = n)) as [->|Hne]; [by destruct (H1 t)|].
    exists t. split; [by rewrite H2|lia].
  Qed.
  Lemma grows_ensure schema : grows (@ensure_initialized S ident schema).
  Proof.
    apply grows_bind; [apply grows_exists|]. intros []; [apply grows_ret|].
    apply grows_bind; [|intros _; apply grows_bind; [|intros _; apply grows_insert]].
    - apply grows_step. intros s. destruct (ident schema) as [n|]; [|apply grown_refl].
      destruct (pg_schemas _ !! n) eqn:E; [apply grown_refl|]. apply (grown_other _ _ n).
      + intros t Ht. unfold has_table in Ht. congruence.
      + intros n' Hn. simpl. by rewrite lookup_insert_ne.
    - apply grows_step. intros s. destruct (ident schema) as [n|]; [|apply grown_refl].
      destruct (pg_schemas _ !! n) as [[t|]|] eqn:E; [apply grown_refl| |apply grown_refl]. apply (grown_other _ _ n).
      + intros t Ht. unfold has_table in Ht. congruence.
      + intros n' Hn. simpl. by rewrite lookup_insert_ne.
  Qed.
  Lemma grows_current schema : grows (@db_current_version S ident schema).
  Proof. apply grows_bind; [apply grows_exists|]. intros []; [apply grows_ask|]. apply grows_read. Qed.
  Lemma grows_execute_all stmts : grows (execute_all sem stmts).
  Proof.
    induction stmts as [|stmt stmts IH]; [apply grows_ret|]. simpl.
    apply grows_bind; [apply grows_unwrap, grows_execute|done].
  Qed.
  Lemma grows_apply d schema names : grows (apply_versions sem ident d schema names).
  Proof.
    induction names as [|n names IH]; [apply grows_ret|]. simpl. apply grows_bind; [apply grows_read|]. intros v.
    apply grows_bind; [apply grows_execute_all|]. intros _.
    apply grows_bind; [apply grows_unwrap, grows_insert|done].
  Qed.
  Lemma grows_revert schema names : grows (revert_versions sem ident schema names).
  Proof.
    induction names as [|n names IH]; [apply grows_ret|]. simpl.
    apply grows_bind; [apply grows_unwrap, grows_ask|]. intros v.
    apply grows_bind; [apply grows_execute_all|]. intros _.
    apply grows_bind; [apply grows_unwrap, grows_delete|done].
  Qed.
  Lemma grows_commit : grows (commit sem).
  Proof. apply grows_step. intros s. destruct (sem _ _); apply grown_refl. Qed.
  Lemma grows_up l d schema version : grows (up sem ident l d schema version).
  Proof.
    apply grows_bind; [apply grows_read|]. intros h. apply grows_bind; [apply grows_ensure|]. intros _.
    apply grows_bind; [apply grows_current|]. intros c. apply grows_bind; [apply grows_read|]. intros to.
    apply grows_bind; [apply grows_read|]. intros [|n names]; [apply grows_ret|].
    apply grows_bind; [apply grows_apply|]. intros _. apply grows_commit.
  Qed.
  Lemma grows_down schema version : grows (down sem ident schema version).
  Proof.
    apply grows_bind; [apply grows_ensure|]. intros _. apply grows_bind; [apply grows_current|]. intros c.
    destruct (match version with Some v => Some v | None => _ end); [|apply grows_ret].
    apply grows_bind.
    { apply grows_bind; [apply grows_ask|]. intros f. apply grows_bind; [apply grows_ask|]. intros t.
      destruct f; [|apply grows_read]. destruct t; [apply grows_ask|apply grows_read]. }
    intros [|n names]; [apply grows_ret|].
    apply grows_bind; [apply grows_revert|]. intros _. apply grows_commit.
  Qed.
  (** A failed command: the same rows, and the counter at least where it was. *)
  Lemma failed_table m k db r db' schema t' :
    careful m -> grows m -> run m k db = (r, db') -> r <> Ret () -> has_table db' schema t' ->
    exists t, has_table db schema t /\ t_rows t' = t_rows t /\ (t_next t <= t_next t')%Z.
  Proof.
    unfold run. intros Hc Hg. specialize (Hc (k, Session db db)). specialize (Hg (k, Session db db)).
    destruct (m _) as [x [k' s]]. simpl in *. intros [= <- <-] Hr Ht. specialize (Hc Hr).
    unfold has_table in Ht. simpl in Ht. rewrite map_lookup_imap, Hc in Ht.
    destruct (pg_schemas db !! schema) as [[t|]|] eqn:E; simpl in Ht; try done.
    destruct (Hg schema t E) as (t1 & E1 & Hle). unfold has_table in E1. rewrite E1 in Ht. injection Ht as <-.
    exists t. split; [done|]. by split.
  Qed.
End grows.

(** ** Chained tables *)
Lemma chained_fresh : chained fresh_table.
Proof.
  split; [by exists 1%Z, []|]. split; [done|].
  split; [apply NoDup_singleton|]. split; [repeat constructor|]. constructor; [simpl; lia|constructor].
Qed.
Lemma chained_rows t t' : t_rows t' = t_rows t -> (t_next t <= t_next t')%Z -> chained t -> chained t'.
Proof.
  unfold chained. intros -> Hle (H1 & H2 & H3 & H4 & H5). do 4 (split; [done|]).
  eapply Forall_impl; [done|]. simpl. intros. lia.
Qed.
Lemma chained_last t cur : chained t -> newest (t_rows t) cur -> exists pre, t_rows t = pre ++ [cur].
Proof.
  intros (_ & _ & _ & Hinc & _) Hn. apply newest_is_last in Hn; [|done]. by apply last_Some in Hn.
Qed.
Lemma chained_after t cur vs :
  chained t -> newest (t_rows t) cur -> linked (Some (row_name cur)) vs -> NoDup (v_name <$> vs) ->
  (forall v, v ∈ vs -> v_name v ∉ row_name <$> t_rows t) -> chained (after t vs).
Proof.
  intros Hc Hn Hl Hnd Hnew. pose proof (chained_last _ _ Hc Hn) as [pre Hpre].
  destruct Hc as ((o & rest & H1) & H2 & H3 & H4 & H5). unfold chained, after. cbn [t_rows t_next].
  split; [exists o; rewrite H1; by eexists|]. split; [|split; [|split]].
  - rewrite fmap_app, numbered_versions. apply linked_app. split; [done|].
    rewrite Hpre, fmap_app. cbn [fmap list_fmap]. by rewrite last_snoc.
  - rewrite fmap_app. apply NoDup_app. split; [done|]. change (v_name ∘ r_version) with row_name.
    rewrite row_names_numbered. split; [|done]. intros n Hn1 (v & -> & Hv)%elem_of_list_fmap. by apply (Hnew v).
  - apply increasing_app. split; [done|]. split; [apply numbered_increasing|].
    intros r r' Hr Hr'%numbered_order. rewrite Forall_forall in H5. specialize (H5 _ Hr). lia.
  - apply Forall_app. split; [eapply Forall_impl; [done|]; simpl; intros; lia|].
    apply Forall_forall. intros r Hr%numbered_order. lia.
Qed.
Lemma chained_prefix pre r suf o :
  chained (VTable (pre ++ r :: suf) o) -> chained (VTable (pre ++ [r]) o).
Proof.
  unfold chained. cbn [t_rows t_next].
  replace (pre ++ r :: suf) with ((pre ++ [r]) ++ suf) by (by rewrite <- (assoc (++))).
  intros ((x & rest & H1) & H2 & H3 & H4 & H5). split; [|split; [|split; [|split]]].
  - exists x. destruct pre as [|y pre]; [injection H1 as <- _; by exists []|]. injection H1 as -> _. by eexists.
  - rewrite fmap_app in H2. by apply linked_app in H2 as [? _].
  - rewrite fmap_app in H3. by apply NoDup_app in H3 as [? _].
  - by apply increasing_app in H4 as [? _].
  - by apply Forall_app in H5 as [? _].
Qed.
Lemma chained_up_to t rt : chained t -> rt ∈ t_rows t -> chained (VTable (up_to rt (t_rows t)) (t_next t)).
Proof.
  intros Hc Hrt. destruct t as [rows o]. cbn [t_rows t_next] in *. apply elem_of_list_split in Hrt as (pre & suf & ->).
  pose proof Hc as (_ & _ & _ & Hinc & _). cbn [t_rows] in Hinc. destruct (increasing_split _ _ _ Hinc) as [_ ->].
  by eapply chained_prefix.
Qed.
Lemma chained_distinct t : chained t -> distinct (t_rows t).
Proof. intros (_ & _ & H1 & H2 & _). split; [done|by apply increasing_nodup]. Qed.

Section chain.
  Context {S : Type} (sem : str -> S -> option S) (ident : str -> option str) (schema : str).
  Hypothesis Hident : ident schema = Some schema.

  Definition good (db : pg S) : Prop := forall t, has_table db schema t -> chained t.
  Lemma good_finds db t : good db -> finds db schema t -> chained t.
  Proof. intros Hg [Ht|[_ ->]]; [by apply Hg|apply chained_fresh]. Qed.
  Lemma failed_good m k db r db' :
    careful m -> grows m -> run m k db = (r, db') -> r <> Ret () -> good db -> good db'.
  Proof.
    intros Hc Hgr Hrun Hr Hg t' Ht'.
    destruct (failed_table m k db r db' schema t' Hc Hgr Hrun Hr Ht') as (t & Ht & Hrows & Hle).
    by eapply chained_rows, Hg.
  Qed.
  Lemma up_good l d version k db r db' :
    well_named d -> plain_dir d -> run (up sem ident l d schema version) k db = (r, db') -> good db -> good db'.
  Proof.
    intros Hw Hp Hrun Hg. destruct (decide (is_ret r = true)) as [Hr|Hr].
    2: { eapply failed_good; [apply careful_up|apply grows_up|done|by intros ->|done]. }
    assert (r = Ret ()) as -> by (by destruct r as [[]| | | |]).
    apply up_inv in Hrun as (t & cur & to & names & vs & _ & Ht & Hn & _ & Hpath & _ & Hs & _ & _ & Hnd & Hnew & H1 & H2); try done.
    destruct vs as [|v vs]; [by rewrite H1|]. destruct (H2 ltac:(done)) as [_ H2']. intros t' Ht'. unfold has_table in Ht'. rewrite H2', lookup_insert in Ht' by done.
    injection Ht' as <-. eapply chained_after; [by eapply good_finds|done| |done|done].
    by eapply path_linked.
  Qed.
  Lemma down_good version k db r db' :
    run (down sem ident schema version) k db = (r, db') -> good db -> good db'.
  Proof.
    intros Hrun Hg. destruct (decide (is_ret r = true)) as [Hr|Hr].
    2: { eapply failed_good; [apply careful_down|apply grows_down|done|by intros ->|done]. }
    assert (r = Ret ()) as -> by (by destruct r as [[]| | | |]).
    apply down_inv in Hrun as (t & cur & Ht & Hn & [(_ & _ & ->)|(to & rt & _ & Hrt & _ & _ & H1 & H2)]); try done.
    2: { intros t Ht. by apply chained_distinct, Hg. }
    destruct (decide (later rt (t_rows t) = [])) as [E|E]; [by rewrite H1|].
    destruct (H2 E) as [_ H2']. intros t' Ht'. unfold has_table in Ht'. rewrite H2', lookup_insert in Ht' by done. injection Ht' as <-.
    apply chained_up_to; [by eapply good_finds|done].
  Qed.
  Lemma migration_good db db' : migration sem ident schema db db' -> good db -> good db'.
  Proof.
    destruct 1 as [l d version k db r db' Hw Hp H|version k db r db' H]; [by eapply up_good|by eapply down_good].
  Qed.
  Lemma migrated_good db : migrated sem ident schema db -> good db.
  Proof.
    induction 1 as [db Hn|db db' _ IH Hm]; [|by eapply migration_good].
    intros t Ht. unfold has_table in Ht. congruence.
  Qed.
  Lemma migrated_chained db t : migrated sem ident schema db -> has_table db schema t -> chained t.
  Proof. intros H. by apply migrated_good. Qed.
  Lemma migrated_finds db t : migrated sem ident schema db -> finds db schema t -> chained t.
  Proof. intros H. by apply good_finds, migrated_good. Qed.
  Lemma migrated_found db : migrated sem ident schema db -> exists t, finds db schema t.
  Proof.
    intros H. assert (pg_schemas db !! schema <> Some None) as Hn.
    { induction H as [db Hn|db db' Hdb IH Hm]; [congruence|].
      destruct Hm as [l d version k db r db' Hw Hp H|version k db r db' H].
      - destruct (decide (is_ret r = true)) as [Hr|Hr].
        + assert (r = Ret ()) as -> by (by destruct r as [[]| | | |]).
          apply up_inv in H as (t & cur & to & names & vs & _ & _ & _ & _ & _ & _ & _ & _ & _ & _ & _ & H1 & H2); try done.
          destruct vs; [by rewrite H1|]. by rewrite (proj2 (H2 ltac:(done))), lookup_insert.
        + apply all_or_nothing in H as [_ H]; [|apply careful_up|by intros ->]. specialize (H schema).
          intros E. rewrite E in H. apply IH. by destruct (pg_schemas db !! schema) as [[]|].
      - destruct (decide (is_ret r = true)) as [Hr|Hr].
        + assert (r = Ret ()) as -> by (by destruct r as [[]| | | |]).
          apply down_inv in H as (t & cur & Ht & Hn & [(_ & _ & ->)|(to & rt & _ & _ & _ & _ & H1 & H2)]); try done.
          2: { intros t Ht. by eapply chained_distinct, migrated_chained. }
          destruct (decide (later rt (t_rows t) = [])) as [E|E]; [by rewrite H1|]. by rewrite (proj2 (H2 E)), lookup_insert.
        + apply all_or_nothing in H as [_ H]; [|apply careful_down|by intros ->]. specialize (H schema).
          intros E. rewrite E in H. apply IH. by destruct (pg_schemas db !! schema) as [[]|]. }
    destruct (found_cases schema db) as [?|[_ ?]]; done.
  Qed.
End chain.
