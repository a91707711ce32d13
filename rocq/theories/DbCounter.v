(** What a command that fails leaves behind: the position of the sequence, and nothing else. *)
From Verif Require Import Base Text Types Changes Sql History SpecHistory HistoryLemmas HistoryLoad HistoryProofs Dbh SpecDb DbLemmas DbRun DbSteps DbClaims.
From stdpp Require Import sorting.

Section counter.
  Context {S : Type} (sem : str -> S -> option S) (ident : str -> option str) (schema : str).

  (** The tables stay; the sequence of the version table moves by at most [i]. *)
  Definition moved (i : nat) (s s' : session S) : Prop :=
    forall n t, pg_schemas (working s) !! n = Some (Some t) ->
      exists t', pg_schemas (working s') !! n = Some (Some t') /\
        (t_next t <= t_next t')%Z /\ (t_next t' <= t_next t + Z.of_nat i)%Z /\
        (ident schema <> Some n -> t_next t' = t_next t).
  Definition spends {A} (i : nat) (m : io (session S) A) : Prop := forall p, moved i p.2 (m p).2.2.
  Lemma moved_refl i s : moved i s s.
  Proof. intros n t H. exists t. split; [done|]. lia. Qed.
  Lemma moved_trans i j s1 s2 s3 : moved i s1 s2 -> moved j s2 s3 -> moved (i + j) s1 s3.
  Proof.
    intros H1 H2 n t (t1 & Hn1 & ? & ? & K1)%H1. destruct (H2 n t1 Hn1) as (t2 & ? & ? & ? & K2).
    exists t2. split; [done|]. split; [lia|]. split; [lia|]. intros Hi. rewrite K2, K1; done.
  Qed.
  Lemma moved_le i j s s' : i <= j -> moved i s s' -> moved j s s'.
  Proof. intros Hij H n t (t1 & ? & ? & ? & ?)%H. exists t1. split; [done|]. split; [done|]. split; [lia|done]. Qed.

  Lemma spends_ret {A} (a : A) : spends 0 (iret a).
  Proof. intros []. apply moved_refl. Qed.
  Lemma spends_read {A} (f : session S -> exec A) : spends 0 (iread f).
  Proof. intros []. apply moved_refl. Qed.
  Lemma spends_step {A} i (f : session S -> exec A * session S) : (forall s, moved i s (f s).2) -> spends i (istep f).
  Proof. intros H [[|k] s]; [apply moved_refl|]. simpl. specialize (H s). by destruct (f s). Qed.
  Lemma spends_bind {A B} i j (m : io (session S) A) (g : A -> io (session S) B) :
    spends i m -> (forall a, spends j (g a)) -> spends (i + j) (ibind m g).
  Proof.
    intros Hm Hg p. specialize (Hm p). unfold ibind. destruct (m p) as [[a|e| | |] p']; simpl in *.
    1: { eapply moved_trans; [done|apply Hg]. }
    all: eapply moved_le; [|done]; lia.
  Qed.
  Lemma spends_unwrap {A} i (m : io (session S) A) : spends i m -> spends i (iunwrap m).
  Proof. intros H p. specialize (H p). unfold iunwrap. by destruct (m p). Qed.
  Lemma spends_on_table {A} i (f : vtable -> exec A * vtable) :
    (forall t, t_next t <= t_next (f t).2 /\ t_next (f t).2 <= t_next t + Z.of_nat i)%Z -> spends i (on_table ident schema f).
  Proof.
    intros Hf. apply spends_step. intros s. destruct (ident schema) as [n|] eqn:Ei; [|apply moved_refl].
    destruct (pg_schemas (working s) !! n) as [[t|]|] eqn:En; try apply moved_refl.
    specialize (Hf t). destruct (f t) as [r t']. intros n' t0 Hn'. simpl in *.
    destruct (decide (n' = n)) as [->|Hne].
    - rewrite lookup_insert. exists t'. split; [done|]. rewrite En in Hn'. injection Hn' as <-. split; [lia|]. split; [lia|].
      intros []. done.
    - rewrite lookup_insert_ne by done. exists t0. split; [done|]. lia.
  Qed.
  Lemma spends_ask {A} (f : list row -> exec A) : spends 0 (ask_table ident schema f).
  Proof. apply spends_on_table. intros t. simpl. lia. Qed.
  Lemma insert_row_next v t : (t_next t <= t_next (insert_row v t).2 /\ t_next (insert_row v t).2 <= t_next t + Z.of_nat 1)%Z.
  Proof.
    unfold insert_row. destruct (negb _); [simpl; lia|]. destruct (decide _); [simpl; lia|].
    destruct (decide _); [simpl; lia|]. destruct (decide _); [simpl; lia|].
    destruct (v_previous v); [destruct (decide _)|]; simpl; lia.
  Qed.
  Lemma spends_record v : spends 1 (record_version ident schema v).
  Proof. apply spends_on_table, insert_row_next. Qed.
  Lemma spends_delete v : spends 0 (delete_version ident schema v).
  Proof. apply spends_on_table. intros t. unfold delete_row. destruct (decide _); simpl; lia. Qed.
  Lemma spends_execute stmt : spends 0 (execute sem stmt).
  Proof. apply spends_step. intros s. destruct (sem stmt _); [|apply moved_refl]. intros n t H. exists t. split; [done|]. lia. Qed.
  Lemma spends_execute_all stmts : spends 0 (execute_all sem stmts).
  Proof.
    induction stmts as [|stmt stmts IH]; [apply spends_ret|]. simpl.
    apply (spends_bind 0 0); [apply spends_unwrap, spends_execute|done].
  Qed.
  Lemma spends_exists : spends 0 (@meta_schema_exists S schema).
  Proof. apply spends_step. intros s. apply moved_refl. Qed.
  Lemma spends_current : spends 0 (@db_current_version S ident schema).
  Proof. apply (spends_bind 0 0); [apply spends_exists|]. intros []; [apply spends_ask|apply spends_read]. Qed.
  Lemma spends_commit : spends 0 (commit sem).
  Proof. apply spends_step. intros s. destruct (sem _ _); [|apply moved_refl]. intros n t H. exists t. split; [done|]. lia. Qed.
  Lemma spends_apply d names : spends (length names) (apply_versions sem ident d schema names).
  Proof.
    induction names as [|n names IH]; [apply spends_ret|]. simpl. apply (spends_bind 0); [apply spends_read|]. intros v.
    apply (spends_bind 0); [apply spends_execute_all|]. intros _.
    apply (spends_bind 1); [apply spends_unwrap, spends_record|done].
  Qed.
  Lemma spends_revert names : spends 0 (revert_versions sem ident schema names).
  Proof.
    induction names as [|n names IH]; [apply spends_ret|]. simpl. apply (spends_bind 0 0); [apply spends_unwrap, spends_ask|]. intros v.
    apply (spends_bind 0 0); [apply spends_execute_all|]. intros _.
    apply (spends_bind 0 0); [apply spends_unwrap, spends_delete|done].
  Qed.
  Lemma spends_range from to : spends 0 (@get_downward_range S ident schema from to).
  Proof.
    apply (spends_bind 0 0); [apply spends_ask|]. intros [f|]; (apply (spends_bind 0 0); [apply spends_ask|]); intros [t|];
      first [apply spends_ask|apply spends_read].
  Qed.
  (** A table that is created is not one that was there. *)
  Lemma spends_ensure : spends 0 (@ensure_initialized S ident schema).
  Proof.
    apply (spends_bind 0 0); [apply spends_exists|]. intros []; [apply spends_ret|].
    intros [[|k] s]; [apply moved_refl|]. unfold create_meta_schema. unfold ibind at 1. unfold create_schema, istep at 1.
    destruct (ident schema) as [n|] eqn:Ei; [|apply moved_refl].
    destruct (pg_schemas (working s) !! n) as [o|] eqn:En; [apply moved_refl|].
    set (s1 := Session _ _). intros n' t Hn'. simpl in Hn'.
    assert (n' <> n) as Hne by congruence.
    assert (forall B (m : io (session S) B), (forall q, pg_schemas (working (m q).2.2) !! n' = pg_schemas (working q.2) !! n') ->
      forall g : B -> io (session S) (), (forall b q, pg_schemas (working (g b q).2.2) !! n' = pg_schemas (working q.2) !! n') ->
      forall q, pg_schemas (working (ibind m g q).2.2) !! n' = pg_schemas (working q.2) !! n') as Hb.
    { intros B m Hm g Hg q. unfold ibind. specialize (Hm q). destruct (m q) as [[b|e| | |] q']; simpl in *; [|done..].
      by rewrite Hg. }
    exists t. split; [|lia]. rewrite Hb.
    - simpl. by rewrite lookup_insert_ne.
    - intros [[|k1] q]; [done|]. simpl. rewrite Ei. destruct (pg_schemas (working q) !! n) as [[|]|]; try done. simpl.
      by rewrite lookup_insert_ne.
    - intros [] [[|k1] q]; [done|]. unfold record_version, on_table, istep. rewrite Ei.
      destruct (pg_schemas (working q) !! n) as [[t1|]|]; try done. destruct (insert_row new_init t1). simpl.
      by rewrite lookup_insert_ne.
  Qed.
  Lemma spends_down version : spends 0 (down sem ident schema version).
  Proof.
    apply (spends_bind 0 0); [apply spends_ensure|]. intros _. apply (spends_bind 0 0); [apply spends_current|]. intros c.
    destruct (match version with Some v => Some v | None => _ end); [|apply spends_ret].
    apply (spends_bind 0 0); [apply spends_range|]. intros [|n names]; [apply spends_ret|].
    apply (spends_bind 0 0); [apply spends_revert|]. intros _. apply spends_commit.
  Qed.

  (** The database after a command that failed. *)
  Lemma rolled_back_moved i (db : pg S) s :
    committed s = db -> moved i (Session db db) s ->
    pg_user (rolled_back s) = pg_user db /\
    forall n, match pg_schemas db !! n with
      | Some (Some t) => exists t', pg_schemas (rolled_back s) !! n = Some (Some t') /\ t_rows t' = t_rows t /\
          (t_next t <= t_next t')%Z /\ (t_next t' <= t_next t + Z.of_nat i)%Z /\ (ident schema <> Some n -> t_next t' = t_next t)
      | x => pg_schemas (rolled_back s) !! n = x
      end.
  Proof.
    intros <- Hm. split; [done|]. intros n. unfold rolled_back. simpl. rewrite map_lookup_imap.
    destruct (pg_schemas (committed s) !! n) as [[t|]|] eqn:En; [|done..]. simpl.
    destruct (Hm n t En) as (t' & -> & ? & ? & ?). exists (advance t t'). split; [done|]. split; [done|]. simpl. auto.
  Qed.
  Lemma down_exactly version k (db : pg S) r db' :
    run (down sem ident schema version) k db = (r, db') -> r <> Ret () -> db' = db.
  Proof.
    unfold run. pose proof (spends_down version (k, Session db db)) as Hm.
    pose proof (careful_down sem ident schema version (k, Session db db)) as Hc.
    destruct (down sem ident schema version (k, Session db db)) as [x [k' s]]. simpl in *. intros [= <- <-] Hr.
    specialize (Hc Hr). destruct (rolled_back_moved 0 db s Hc Hm) as [Hu Hs].
    destruct db as [u schemas]. destruct (rolled_back s) as [u' schemas']. simpl in *. subst u'. f_equal.
    apply map_eq. intros n. specialize (Hs n). destruct (schemas !! n) as [[t|]|]; [|done..].
    destruct Hs as (t' & -> & ? & ? & ? & _). do 2 f_equal. destruct t, t'. simpl in *. f_equal; [done|lia].
  Qed.

  Hypothesis Hident : ident schema = Some schema.
  Lemma up_counter l d version k (db : pg S) r db' :
    well_named d -> plain_dir d ->
    run (up sem ident l d schema version) k db = (r, db') -> r <> Ret () ->
    pg_user db' = pg_user db /\
    (forall n, (forall t, n = schema -> pg_schemas db !! n <> Some (Some t)) -> pg_schemas db' !! n = pg_schemas db !! n) /\
    forall t, has_table db schema t -> exists t', has_table db' schema t' /\ t_rows t' = t_rows t /\
      (t_next t' = t_next t \/
       exists cur to names, newest (t_rows t) cur /\ target d version to /\
         SpecHistory.path d (row_name cur) names to /\ row_name cur ∉ names /\
         (t_next t <= t_next t' <= t_next t + Z.of_nat (length names))%Z).
  Proof.
    intros Hw Hp. unfold run. pose proof (careful_up sem ident l d schema version (k, Session db db)) as Hc.
    assert (exists names, moved (length names) (Session db db) (up sem ident l d schema version (k, Session db db)).2.2 /\
      (names = [] \/ forall t, has_table db schema t -> exists cur to, newest (t_rows t) cur /\ target d version to /\
         SpecHistory.path d (row_name cur) names to /\ row_name cur ∉ names)) as (names & Hm & Hn).
    { clear Hc. unfold up. unfold ibind at 1. unfold iread at 1. cbn [snd].
      destruct (from_dir l d) as [h| | | |] eqn:Eh; try (exists []; split; [apply moved_refl|by left]).
      pose proof (prelude ident schema db Hident iret k) as Hpre.
      pose proof (spends_bind 0 0 _ _ spends_ensure (fun _ : () => spends_bind 0 0 _ _ spends_current (@spends_ret _)) (k, Session db db)) as H0.
      unfold ibind in Hpre, H0. unfold ibind at 1.
      destruct (ensure_initialized ident schema (k, Session db db)) as [[[]| | | |] p1]; try (exists []; split; [exact H0|by left]).
      unfold ibind at 1.
      destruct (db_current_version ident schema p1) as [[c| | | |] p2]; try (exists []; split; [exact H0|by left]).
      unfold ibind at 1. unfold iread at 1. cbn [snd].
      destruct (match version with Some v => get_version d v | None => get_current_version h d end) as [v| | | |] eqn:Ev;
        try (exists []; split; [exact H0|by left]).
      unfold ibind at 1. unfold iread at 1. cbn [snd].
      destruct (get_upward_range d (v_name c) (v_name v)) as [names| | | |] eqn:En; try (exists []; split; [exact H0|by left]).
      exists names. split.
      - change (length names) with (0 + length names). eapply moved_trans; [exact H0|]. simpl.
        destruct names as [|n names]; [apply moved_refl|].
        pose proof (spends_bind _ 0 _ (fun _ => commit sem) (spends_apply d (n :: names)) (fun _ => spends_commit) p2) as K.
        rewrite Nat.add_0_r in K. exact K.
      - right. intros t Ht. simpl in Hpre. destruct Hpre as [K|[(t1 & cur & rest & k1 & Ht1 & Hcur & K)|[_ K]]]; try done.
        injection K as -> ->. exists cur, (v_name v).
        destruct Ht1 as [Ht1|[Ht1 _]]; [|by unfold has_table in Ht; congruence].
        assert (t1 = t) as -> by (unfold has_table in *; congruence).
        split; [by eapply newest_first_newest|]. split; [by eapply target_from|].
        by apply range_named_iff. }
    destruct (up sem ident l d schema version (k, Session db db)) as [x [k' s]]. simpl in *. intros [= <- <-] Hr.
    specialize (Hc Hr). destruct (rolled_back_moved _ db s Hc Hm) as [Hu Hs]. split; [exact Hu|]. split.
    - intros n Hne. specialize (Hs n). destruct (pg_schemas db !! n) as [[t|]|] eqn:Edb; [|exact Hs..].
      destruct Hs as (t' & Hs & Hrows & _ & _ & Hid). rewrite Hs. do 2 f_equal.
      assert (t_next t' = t_next t) as Hnext.
      { apply Hid. rewrite Hident. intros [= <-]. by destruct (Hne t eq_refl). }
      destruct t, t'. simpl in *. by subst.
    - intros t Ht. pose proof (Hs schema) as K. unfold has_table in Ht. rewrite Ht in K.
      destruct K as (t' & K & ? & ? & ? & _). exists t'. split; [exact K|]. split; [done|].
      destruct Hn as [->|Hn]; [left; simpl in *; lia|]. right. destruct (Hn t Ht) as (cur & to & ? & ? & ? & ?).
      exists cur, to, names. done.
  Qed.
End counter.
