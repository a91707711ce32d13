(** The properties of the migration commands. *)
From Verif Require Import Base Text Types Changes Sql History SpecHistory HistoryLemmas HistoryLoad HistoryProofs
  HistoryRun HistoryClaims Dbh SpecDb DbLemmas DbRun DbSteps DbClaims DbChain.
From stdpp Require Import sorting.

Section proofs.
  Context {S : Type} (sem : str -> S -> option S) (ident : str -> option str) (schema : str).

  (** ** C36 *)
  Lemma up_atomic l d version k db r db' :
    run (up sem ident l d schema version) k db = (r, db') -> r <> Ret () -> same_contents db db'.
  Proof. apply all_or_nothing, careful_up. Qed.
  Lemma down_atomic version k db r db' :
    run (down sem ident schema version) k db = (r, db') -> r <> Ret () -> same_contents db db'.
  Proof. apply all_or_nothing, careful_down. Qed.

  Hypothesis Hident : ident schema = Some schema.

  (** ** C37 *)
  Lemma up_applies l d version k db db' :
    well_named d -> plain_dir d ->
    run (up sem ident l d schema version) k db = (Ret (), db') ->
    exists t cur to names vs,
      finds db schema t /\ newest (t_rows t) cur /\ target d version to /\
      path d (v_name (r_version cur)) names to /\ v_name (r_version cur) ∉ names /\
      Forall2 (stored d) names vs /\ runs sem (vs ≫= v_up) (pg_user db) (pg_user db') /\
      (vs = [] -> db' = db) /\
      (vs <> [] -> settled sem (pg_user db') /\ pg_schemas db' =
         <[schema := Some (VTable (t_rows t ++ numbered (t_next t) vs) (t_next t + Z.of_nat (length vs)))]> (pg_schemas db)).
  Proof.
    intros Hw Hp H. apply up_inv in H as (t & cur & to & names & vs & _ & H1 & H2 & H3 & H4 & H5 & H6 & H7 & _ & _ & _ & H8 & H9); try done.
    by exists t, cur, to, names, vs.
  Qed.
  Lemma reachable_dir d : reachable d -> well_named d /\ plain_dir d.
  Proof.
    intros (made & st & Hd & _)%reachable_linear. split; [by eapply holds_well_named|by eapply holds_plain].
  Qed.
  Lemma linear_is_current d made st c : linear d made st -> is_current d c -> c = v_name (default new_init (last made)).
  Proof.
    intros Hlin Hc.
    assert (plain_dir d) as Hp by (destruct Hlin as (Hd & _); by eapply holds_plain).
    assert (exists l : listing, True) as [l _].
    { unshelve eexists (Listing (fun d => (map_to_list d).*1) _); done. }
    destruct (linear_loads l _ _ _ Hlin) as (h & Hh & E). rewrite <- E.
    pose proof (proj1 (from_dir_iff l d h Hp) Hh) as (H1 & H2 & H3 & _).
    pose proof (proj2 (from_dir_iff l d (FSHistory (next_map h) c) Hp)) as K. rewrite Hh in K.
    assert (Ret h = Ret (FSHistory (next_map h) c)) as [= ->] by (by apply K). done.
  Qed.
  Lemma reachable_target l d version to :
    reachable d -> target d version to ->
    exists h v, from_dir l d = Ret h /\
      match version with Some v => get_version d v | None => get_current_version h d end = Ret v /\ v_name v = to.
  Proof.
    intros Hr Ht. pose proof (reachable_dir d Hr) as [Hw _]. pose proof Hr as (made & st & Hlin)%reachable_linear.
    destruct (linear_loads l _ _ _ Hlin) as (h & Hh & Hcur). exists h. destruct version as [n|]; simpl in Ht.
    - destruct Ht as [-> [v Hv]]. exists v. split; [done|]. split; [by apply get_version_iff|by apply Hw].
    - apply (linear_is_current _ _ _ _ Hlin) in Ht as ->. exists (default new_init (last made)). split; [done|].
      split; [|done]. unfold get_current_version. rewrite Hcur. apply get_version_iff.
      destruct Hlin as (Hd & _). apply (holds_stored _ _ _ _ Hd). split; [|done]. apply elem_of_app. left.
      destruct (last made) as [u|] eqn:E; [|by left]. right. by apply last_Some_elem_of.
  Qed.
  Lemma reachable_path_nodup d a ns b vs : reachable d -> path d a ns b -> Forall2 (stored d) ns vs ->
    NoDup (v_name <$> vs) /\ a ∉ ns.
  Proof.
    intros Hr Hp Hs. split; [|by eapply reachable_path_fresh].
    pose proof (reachable_dir d Hr) as [Hw _].
    assert (v_name <$> vs = ns) as ->.
    { clear Hp. induction Hs as [|n v ns vs Hv Hs IH]; [done|]. rewrite fmap_cons, IH, (Hw _ _ Hv). done. }
    pose proof Hr as (made & st & Hd & Hl & _)%reachable_linear.
    destruct (linked_path_inv _ _ _ _ _ Hd Hl Hp) as (vs1 & u & ws & zs & E & <- & -> & _).
    destruct Hd as (Hnd & _ & _). rewrite E, fmap_app, fmap_cons, fmap_app in Hnd.
    apply NoDup_app in Hnd as (_ & _ & [_ Hn]%NoDup_cons). by apply NoDup_app in Hn as [? _].
  Qed.
  Lemma up_succeeds l d version k db r db' t cur to names vs :
    reachable d -> migrated sem ident schema db ->
    finds db schema t -> newest (t_rows t) cur -> target d version to ->
    path d (v_name (r_version cur)) names to -> Forall2 (stored d) names vs ->
    Forall fits vs -> (forall v r, v ∈ vs -> r ∈ t_rows t -> v_name (r_version r) <> v_name v) ->
    (t_next t + Z.of_nat (length vs) <= 2147483648)%Z ->
    run (up sem ident l d schema version) k db = (r, db') -> r <> Killed ->
    (exists u', runs sem (vs ≫= v_up) (pg_user db) u' /\ (vs = [] \/ settled sem u') /\ r = Ret () /\ pg_user db' = u') \/
    ((forall u', ~ runs sem (vs ≫= v_up) (pg_user db) u') /\ r = Abort) \/
    (exists u', runs sem (vs ≫= v_up) (pg_user db) u' /\ vs <> [] /\ ~ settled sem u' /\ r = Raise DbError).
  Proof.
    intros Hd Hm Ht Hn Hto Hp Hs Hf Hnew Hmax Hrun Hr.
    destruct (reachable_target l d version to Hd Hto) as (h & v_to & Hh & Hv & Hname).
    destruct (reachable_path_nodup _ _ _ _ _ Hd Hp Hs) as [Hnd Hnot].
    destruct (up_forward sem ident schema db Hident l d version k r db' t cur to v_to names vs h)
      as [(u' & R & Hset & -> & ->)|[[Hno ->]|(u' & R & H1 & H2 & ->)]]; try done.
    - by apply reachable_dir.
    - by eapply migrated_finds.
    - intros v Hv' (x & E & Hx)%elem_of_list_fmap. by apply (Hnew v x).
    - left. unfold max_order. lia.
    - left. exists u'. split; [done|]. split; [done|]. split; [done|]. destruct vs; [|done]. by apply runs_nil_inv in R.
    - right. by left.
    - right. right. by exists u'.
  Qed.

  (** ** C38 *)
  Lemma down_reverts version k db db' :
    (forall t, has_table db schema t -> distinct (t_rows t)) ->
    run (down sem ident schema version) k db = (Ret (), db') ->
    exists t cur, finds db schema t /\ newest (t_rows t) cur /\
      ((version = None /\ v_previous (r_version cur) = None /\ db' = db) \/
       exists to rt rs, match version with Some n => to = n | None => v_previous (r_version cur) = Some to end /\
         rt ∈ t_rows t /\ v_name (r_version rt) = to /\
         (forall r, r ∈ rs <-> r ∈ t_rows t /\ (r_order rt < r_order r)%Z) /\
         StronglySorted (fun a b => r_order b < r_order a)%Z rs /\
         runs sem ((r_version <$> rs) ≫= v_down) (pg_user db) (pg_user db') /\
         (rs = [] -> db' = db) /\
         (rs <> [] -> settled sem (pg_user db') /\ pg_schemas db' =
            <[schema := Some (VTable (filter (fun r => r_order r <= r_order rt)%Z (t_rows t)) (t_next t))]> (pg_schemas db))).
  Proof.
    intros Hd H. pose proof (down_inv sem ident schema db Hident version k db' Hd H) as (t & cur & Ht & Hn & Hcase).
    exists t, cur. split; [done|]. split; [done|]. destruct Hcase as [?|(to & rt & H1 & H2 & H3 & H4 & H5 & H6)]; [by left|right].
    exists to, rt, (newest_first (later rt (t_rows t))). do 3 (split; [done|]).
    pose proof (newest_first_perm (later rt (t_rows t))) as Hp.
    split; [intros r; rewrite Hp; unfold later; rewrite elem_of_list_filter; tauto|].
    assert (newest_first (later rt (t_rows t)) = [] <-> later rt (t_rows t) = []) as Hnil.
    { split; [|by intros ->]. intros E. rewrite E in Hp. by apply Permutation_nil in Hp. }
    split; [|split; [done|]; rewrite Hnil; by split].
    destruct (finds_distinct schema db t Hd Ht) as [_ Hord].
    assert (NoDup (r_order <$> newest_first (later rt (t_rows t)))) as Hnd.
    { rewrite Hp. unfold later. revert Hord. clear. induction (t_rows t) as [|x l IH]; [done|]. rewrite fmap_cons, NoDup_cons.
      intros [H1 H2]. rewrite filter_cons. destruct (decide _); [|by apply IH]. rewrite fmap_cons. constructor; [|by apply IH].
      intros (y & Ey & [_ Hy]%elem_of_list_filter)%elem_of_list_fmap. apply H1. rewrite Ey. by apply elem_of_list_fmap_1. }
    pose proof (newest_first_sorted (later rt (t_rows t))) as Hs. revert Hnd Hs. clear.
    generalize (newest_first (later rt (t_rows t))). induction l as [|x l IH]; [constructor|]. rewrite fmap_cons, NoDup_cons.
    intros [H1 H2] [H3 H4]%StronglySorted_inv. constructor; [by apply IH|]. rewrite Forall_forall in H4 |- *.
    intros y Hy. specialize (H4 y Hy). unfold order_desc in H4. assert (r_order y <> r_order x); [|lia].
    intros E. apply H1. rewrite <- E. by apply elem_of_list_fmap_1.
  Qed.
  Lemma down_succeeds version k db r db' t cur pre rt suf :
    migrated sem ident schema db ->
    finds db schema t -> newest (t_rows t) cur -> t_rows t = pre ++ rt :: suf ->
    match version with Some n => v_name (r_version rt) = n | None => v_previous (r_version cur) = Some (v_name (r_version rt)) end ->
    run (down sem ident schema version) k db = (r, db') -> r <> Killed ->
    (exists u', runs sem ((r_version <$> reverse suf) ≫= v_down) (pg_user db) u' /\ (suf = [] \/ settled sem u') /\ r = Ret () /\ pg_user db' = u') \/
    ((forall u', ~ runs sem ((r_version <$> reverse suf) ≫= v_down) (pg_user db) u') /\ r = Abort) \/
    (exists u', runs sem ((r_version <$> reverse suf) ≫= v_down) (pg_user db) u' /\ suf <> [] /\ ~ settled sem u' /\ r = Raise DbError).
  Proof.
    intros Hm Ht Hn Hrows Hto Hrun Hr.
    destruct (down_forward sem ident schema db Hident version k r db' t pre rt suf cur) as [(u' & R & Hset & -> & ->)|[[Hno ->]|(u' & R & H1 & H2 & ->)]]; try done.
    - by eapply migrated_finds.
    - left. exists u'. split; [done|]. split; [done|]. split; [done|]. destruct suf; [|done]. by apply runs_nil_inv in R.
    - right. by left.
    - right. right. by exists u'.
  Qed.

  (** ** C39 *)
  Lemma up_down l d version k db db1 k' r db2 t cur :
    well_named d -> plain_dir d -> migrated sem ident schema db ->
    finds db schema t -> newest (t_rows t) cur ->
    run (up sem ident l d schema version) k db = (Ret (), db1) ->
    run (down sem ident schema (Some (v_name (r_version cur)))) k' db1 = (r, db2) -> r <> Killed ->
    exists to names vs, target d version to /\ path d (v_name (r_version cur)) names to /\
      Forall2 (stored d) names vs /\ runs sem (vs ≫= v_up) (pg_user db) (pg_user db1) /\
      ((exists t2, runs sem (reverse vs ≫= v_down) (pg_user db1) (pg_user db2) /\ r = Ret () /\
          finds db2 schema t2 /\ t_rows t2 = t_rows t /\
          forall n, n <> schema -> pg_schemas db2 !! n = pg_schemas db !! n) \/
       ((forall u', ~ runs sem (reverse vs ≫= v_down) (pg_user db1) u') /\ r = Abort) \/
       (exists u', runs sem (reverse vs ≫= v_down) (pg_user db1) u' /\ ~ settled sem u' /\ r = Raise DbError)).
  Proof.
    intros Hw Hpl Hm Ht Hn Hup Hdown Hr.
    pose proof Hup as (t' & cur' & to & names & vs & _ & Ht' & Hn' & Hto & Hp & _ & Hs & R & _ & Hnd & Hnew & H1 & H2)%up_inv; try done.
    rewrite (finds_unique _ _ _ _ Ht' Ht) in *. clear t' Ht'.
    assert (chained t) as Hc by (by eapply migrated_finds).
    rewrite (newest_unique (t_rows t) cur' cur) in * by (try done; by apply chained_distinct). clear cur' Hn'.
    exists to, names, vs. split; [done|]. split; [done|]. split; [done|]. split; [done|]. destruct (chained_last _ _ Hc Hn) as [pre Hpre].
    destruct (path_linked _ _ _ _ _ Hp Hw Hs) as [Hl _].
    destruct vs as [|v vs].
    - rewrite (H1 eq_refl) in *. left.
      destruct (down_forward sem ident schema db Hident (Some (row_name cur)) k' r db2 t pre cur [] cur)
        as [(u' & R' & _ & -> & ->)|[[Hno _]|(u' & _ & ? & _)]]; try done.
      + exists t. apply runs_nil_inv in R' as ->. split; [constructor|done].
      + destruct (Hno (pg_user db)). constructor.
    - specialize (H2 ltac:(done)) as [_ H2].
      assert (has_table db1 schema (after t (v :: vs))) as Ht1 by (unfold has_table; by rewrite H2, lookup_insert).
      assert (chained (after t (v :: vs))) as Hc1 by (by eapply chained_after).
      assert (t_rows (after t (v :: vs)) = pre ++ cur :: numbered (t_next t) (v :: vs)) as Erows.
      { unfold after. cbn [t_rows]. rewrite Hpre. by rewrite <- (assoc (++)). }
      assert (exists c, newest (t_rows (after t (v :: vs))) c) as [c Hcur1].
      { destruct Hc1 as (_ & _ & _ & Hinc & _). rewrite Erows in *.
        destruct (last (pre ++ cur :: numbered (t_next t) (v :: vs))) as [c|] eqn:E.
        - exists c. apply last_Some in E as [l' E]. rewrite E in *. by apply newest_last.
        - apply last_None in E. by destruct pre. }
      destruct (down_forward sem ident schema db1 Hident (Some (row_name cur)) k' r db2 (after t (v :: vs)) pre cur
        (numbered (t_next t) (v :: vs)) c) as [(u' & R' & _ & -> & ->)|[[Hno ->]|(u' & R' & _ & Hset & ->)]]; try done.
      + by left.
      + left. rewrite fmap_reverse, numbered_versions in R'. eexists. cbn [numbered]. unfold done_with. cbn [pg_user].
        split; [done|]. split; [done|]. split; [left; unfold has_table; cbn [pg_schemas]; by rewrite lookup_insert|].
        split; [by rewrite Hpre|]. intros n Hne. cbn [pg_schemas]. rewrite lookup_insert_ne by done.
        rewrite H2. by rewrite lookup_insert_ne.
      + right. left. split; [|done]. rewrite fmap_reverse, numbered_versions in Hno. done.
      + right. right. exists u'. rewrite fmap_reverse, numbered_versions in R'. done.
  Qed.
  Lemma undo_all vs u u' :
    (forall v, v ∈ vs -> forall x y, runs sem (v_up v) x y -> runs sem (v_down v) y x) ->
    runs sem (vs ≫= v_up) u u' -> runs sem (reverse vs ≫= v_down) u' u.
  Proof.
    revert u. induction vs as [|v vs IH]; intros u Hundo H.
    - apply runs_nil_inv in H as ->. constructor.
    - cbn [mbind list_bind] in H. apply runs_app_inv in H as (u1 & R1 & R2).
      rewrite reverse_cons, bind_app. eapply runs_app.
      + apply IH; [|done]. intros w Hw. apply Hundo. by right.
      + cbn [mbind list_bind]. rewrite app_nil_r. apply Hundo; [by left|done].
  Qed.
  Lemma up_down_round_trip l d version k db db1 k' r db2 t cur :
    well_named d -> plain_dir d -> migrated sem ident schema db ->
    finds db schema t -> newest (t_rows t) cur ->
    (forall n v, stored d n v -> forall x y, runs sem (v_up v) x y -> runs sem (v_down v) y x) -> settled sem (pg_user db) ->
    run (up sem ident l d schema version) k db = (Ret (), db1) ->
    run (down sem ident schema (Some (v_name (r_version cur)))) k' db1 = (r, db2) -> r <> Killed ->
    r = Ret () /\ pg_user db2 = pg_user db /\
    (exists t2, finds db2 schema t2 /\ t_rows t2 = t_rows t) /\
    forall n, n <> schema -> pg_schemas db2 !! n = pg_schemas db !! n.
  Proof.
    intros Hw Hpl Hm Ht Hn Hundo Hsettled Hup Hdown Hr.
    destruct (up_down l d version k db db1 k' r db2 t cur) as (to & names & vs & _ & _ & Hs & R & Hcase); try done.
    apply undo_all in R.
    2: { intros v (i & Hi)%elem_of_list_lookup. destruct (Forall2_lookup_r _ _ _ _ _ Hs Hi) as (n & _ & Hv). by eapply Hundo. }
    destruct Hcase as [(t2 & Rd & -> & Ht2 & Hrows & Hother)|[[Hno ->]|(u' & R' & Hset & _)]]; [|by destruct (Hno _ R)|].
    2: { destruct Hset. by rewrite (runs_unique _ _ _ _ _ R' R). }
    split; [done|]. split; [by eapply runs_unique|]. split; [by exists t2|done].
  Qed.

  (** ** C41 *)
  Lemma path_end_stored d a ns b : path d a ns b -> exists v, stored d b v.
  Proof. destruct 1; eauto. Qed.
  Lemma up_again l l' d version k db db1 k' r db2 :
    well_named d -> plain_dir d -> migrated sem ident schema db ->
    run (up sem ident l d schema version) k db = (Ret (), db1) ->
    run (up sem ident l' d schema version) k' db1 = (r, db2) -> r <> Killed ->
    r = Ret () /\ db2 = db1.
  Proof.
    intros Hw Hpl Hm Hup Hup2 Hr.
    pose proof Hup as (t & cur & to & names & vs & (h & v_to & Hh & Hv & Hname) & Ht & Hn & _ & Hp & Hnot & Hs & R & _ & Hnd & Hnew & H1 & H2)%up_inv; try done.
    apply (proj1 (from_dir_order l l' d)) in Hh.
    assert (chained t) as Hc by (by eapply migrated_finds).
    destruct (path_linked _ _ _ _ _ Hp Hw Hs) as [Hl Hto].
    destruct (path_end_stored _ _ _ _ Hp) as [v_end Hend].
    assert (forall db t cur, run (up sem ident l' d schema version) k' db = (r, db2) -> finds db schema t -> chained t -> newest (t_rows t) cur -> row_name cur = to ->
      r = Ret () /\ db2 = db) as Hagain.
    { intros db0 t0 cur0 Hrun Ht0 Hc0 Hn0 E0.
      destruct (up_forward sem ident schema db0 Hident l' d version k' r db2 t0 cur0 to v_to [] [] h) as [(u' & _ & _ & -> & ->)|[[Hno _]|(u' & _ & ? & _)]]; try done.
      - rewrite E0. by econstructor.
      - apply not_elem_of_nil.
      - constructor.
      - intros v ?%elem_of_nil. done.
      - by right.
      - destruct (Hno (pg_user db0)). constructor. }
    destruct vs as [|v vs _] using rev_ind.
    - rewrite (H1 eq_refl) in *. by apply (Hagain db t cur).
    - specialize (H2 ltac:(by destruct vs)) as [_ H2]. rewrite last_snoc in Hto.
      assert (chained (after t (vs ++ [v]))) as Hc1 by (by eapply chained_after).
      eapply Hagain; [done|left; unfold has_table; by rewrite H2, lookup_insert|done| |].
      + destruct Hc1 as (_ & _ & _ & Hinc & _). revert Hinc. unfold after. cbn [t_rows].
        rewrite numbered_app, (assoc (++)). cbn [numbered]. apply newest_last.
      + done.
  Qed.

  (** ** C42 *)
  Lemma init_stays db t : migrated sem ident schema db -> has_table db schema t ->
    exists o, Row new_init o ∈ t_rows t.
  Proof.
    intros Hm Ht. destruct (migrated_chained sem ident schema Hident db t Hm Ht) as ((o & rest & E) & _).
    exists o. rewrite E. by left.
  Qed.
  Lemma down_spares_oldest version k db r db' t x :
    (forall t, has_table db schema t -> distinct (t_rows t)) -> has_table db schema t ->
    x ∈ t_rows t -> (forall y, y ∈ t_rows t -> r_order x <= r_order y)%Z ->
    run (down sem ident schema version) k db = (r, db') ->
    (exists t', has_table db' schema t' /\ x ∈ t_rows t') /\
    (r = Ret () -> exists rs, (forall y, y ∈ rs -> y ∈ t_rows t /\ y <> x) /\
       runs sem ((r_version <$> rs) ≫= v_down) (pg_user db) (pg_user db')).
  Proof.
    intros Hd Ht Hx Hmin Hrun. destruct (decide (is_ret r = true)) as [Hr|Hr].
    2: { assert (r <> Ret ()) as Hr' by (by intros ->). split; [|done].
         destruct (same_contents_table db db' schema t) as (t' & Ht' & E); [by eapply down_atomic|done|].
         exists t'. split; [done|]. by rewrite E. }
    assert (r = Ret ()) as -> by (by destruct r as [[]| | | |]).
    apply down_reverts in Hrun as (t0 & cur & Ht0 & Hn & Hcase); [|done].
    rewrite (finds_unique _ _ t0 t) in * by (try done; by left).
    destruct Hcase as [(_ & _ & ->)|(to & rt & rs & _ & Hrt & _ & Hrs & _ & R & H1 & H2)].
    - split; [by exists t|]. intros _. exists []. split; [by intros y ?%elem_of_nil|constructor].
    - split.
      + destruct (decide (rs = [])) as [E|E]; [rewrite H1 by done; by exists t|]. eexists. split.
        * unfold has_table. by rewrite (proj2 (H2 E)), lookup_insert.
        * cbn [t_rows]. apply elem_of_list_filter. split; [by apply Hmin|done].
      + intros _. exists rs. split; [|done]. intros y [Hy Hlt]%Hrs. split; [done|]. intros ->. specialize (Hmin rt Hrt). lia.
  Qed.

  (** ** C40 *)
  Definition follows_history (made : list version) (db : pg S) : Prop :=
    forall t, has_table db schema t ->
      exists pre post, made = pre ++ post /\ r_version <$> t_rows t = new_init :: pre.
  Lemma together_reachable allowed d db : together sem ident schema allowed d db -> reachable d.
  Proof.
    induction 1 as [k k' d db H _|d d' db _ IH Hc|d db l version k r db' _ IH _ _|d db version k r db' _ IH _]; try done.
    - by eapply reachable_init.
    - by eapply reachable_command.
  Qed.
  Lemma together_migrated allowed d db : together sem ident schema allowed d db -> migrated sem ident schema db.
  Proof.
    induction 1 as [k k' d db _ H|d d' db _ IH Hc|d db l version k r db' Ht IH _ H|d db version k r db' _ IH H]; try done.
    - by constructor.
    - destruct (reachable_dir d (together_reachable _ _ _ Ht)) as [Hw Hp]. eapply migrated_step; [done|].
      by eapply migration_up.
    - eapply migrated_step; [done|]. by eapply migration_down.
  Qed.
  Lemma follows_finds made db t :
    follows_history made db -> finds db schema t ->
    exists pre post, made = pre ++ post /\ r_version <$> t_rows t = new_init :: pre.
  Proof. intros Hf [Ht|[_ ->]]; [by apply Hf|]. by exists [], made. Qed.
  Lemma failed_follows m k db r db' made :
    careful m -> run m k db = (r, db') -> r <> Ret () -> follows_history made db -> follows_history made db'.
  Proof.
    intros Hc Hrun Hr Hf t' Ht'.
    assert (same_contents db db') as Hsame by (by eapply all_or_nothing).
    destruct (same_contents_table db' db schema t') as (t & Ht & E); [by apply same_contents_sym|done|].
    rewrite <- E. by apply Hf.
  Qed.
  Lemma path_in_order d made st pre post c rest names to vs :
    linear d made st -> made = pre ++ post -> new_init :: pre = rest ++ [c] ->
    path d (v_name c) names to -> to <> L "stage" -> Forall2 (stored d) names vs ->
    exists post', post = vs ++ post'.
  Proof.
    intros (Hd & Hl & Hst & _) -> Hc Hp Hto Hs.
    destruct (linked_path_inv _ _ _ _ _ Hd Hl Hp) as (vs1 & u & ws & zs & E & Hu & -> & ->).
    assert ((new_init :: pre ++ post) ++ [st] = rest ++ c :: post ++ [st]) as E2.
    { change (new_init :: pre ++ post) with ((new_init :: pre) ++ post). rewrite Hc. by rewrite <- !(assoc (++)). }
    assert (u = c) as ->.
    { eapply (holds_name _ _ _ _ Hd); [rewrite E; apply elem_of_app; right; by left|rewrite E2; apply elem_of_app; right; by left|done]. }
    destruct (holds_split_unique _ _ _ _ _ _ _ Hd E E2) as [_ Ews].
    assert (vs = ws) as ->.
    { assert (forall w, w ∈ ws -> stored d (v_name w) w) as Hall.
      { intros w Hw. apply (holds_stored _ _ _ _ Hd). split; [|done]. rewrite E. apply elem_of_app. right. right.
        apply elem_of_app. by left. }
      clear - Hs Hall. revert vs Hs. induction ws as [|w ws IH]; intros vs Hs.
      - by apply Forall2_nil_inv_l in Hs.
      - rewrite fmap_cons in Hs. apply Forall2_cons_inv_l in Hs as (v & vs' & Hv & Hs & ->).
        rewrite (stored_unique _ _ _ _ Hv (Hall w ltac:(by left))). f_equal. apply IH; [|done].
        intros x Hx. apply Hall. by right. }
    destruct zs as [|z zs _] using rev_ind.
    - rewrite app_nil_r in Ews. subst ws. rewrite last_snoc in Hto. done.
    - rewrite (assoc (++)) in Ews. apply app_inj_tail in Ews as [Ews _]. by exists zs.
  Qed.
  Lemma together_follows d db :
    together sem ident schema (fun n => n <> L "stage") d db ->
    exists made st, linear d made st /\ follows_history made db.
  Proof.
    intros H. induction H as [k k' d db H Hn|d d' db Ht IH Hc|d db l version k r db' Ht IH Hok H|d db version k r db' Ht IH H].
    - exists [], (new_stage INIT). split; [by eapply init_linear|]. intros t Ht. unfold has_table in Ht. congruence.
    - destruct IH as (made & st & Hlin & Hf).
      destruct (linear_command_exact _ _ _ _ Hlin Hc) as [(st' & Hlin')|(n & _ & Hlin')]; [by exists made, st'|].
      eexists _, _. split; [exact Hlin'|]. intros t Ht'. destruct (Hf t Ht') as (pre & post & -> & E).
      exists pre, (post ++ [set_name n st]). split; [by rewrite (assoc (++))|done].
    - destruct IH as (made & st & Hlin & Hf). exists made, st. split; [done|].
      destruct (decide (is_ret r = true)) as [Hr|Hr].
      2: { eapply failed_follows; [apply careful_up|done|by intros ->|done]. }
      assert (r = Ret ()) as -> by (by destruct r as [[]| | | |]).
      destruct (reachable_dir d (together_reachable _ _ _ Ht)) as [Hw Hp].
      pose proof (together_migrated _ _ _ Ht) as Hm.
      apply up_inv in H as (t & cur & to & names & vs & _ & Hfind & Hcur & Hto & Hpath & _ & Hs & _ & _ & _ & _ & H1 & H2); try done.
      destruct (decide (vs = [])) as [->|Hne]; [by rewrite H1|]. specialize (H2 Hne) as [_ H2].
      intros t' Ht'. unfold has_table in Ht'. rewrite H2, lookup_insert in Ht'. injection Ht' as <-.
      destruct (follows_finds _ _ _ Hf Hfind) as (pre & post & Em & E).
      assert (chained t) as Hc by (by eapply migrated_finds). destruct (chained_last _ _ Hc Hcur) as [rows0 Erows].
      assert (to <> L "stage") as Hns.
      { destruct version as [n|]; simpl in Hto; [destruct Hto as [-> _]; by apply Hok|].
        apply (linear_is_current _ _ _ _ Hlin) in Hto as ->. intros Es.
        pose proof Hlin as ((Hnd & _) & _ & Hst & _). rewrite fmap_app in Hnd. apply NoDup_app in Hnd as (_ & Hnd & _).
        apply (Hnd (L "stage")); [|simpl; rewrite Hst; by left].
        rewrite <- Es. apply elem_of_list_fmap_1. destruct (last made) as [u|] eqn:El; [|by left]. right. by apply last_Some_elem_of. }
      destruct (path_in_order d made st pre post (r_version cur) (r_version <$> rows0) names to vs) as [post' ->]; try done.
      { rewrite <- E, Erows, fmap_app. done. }
      exists (pre ++ vs), post'. split; [by rewrite <- (assoc (++))|].
      unfold after. cbn [t_rows]. by rewrite fmap_app, numbered_versions, E.
    - destruct IH as (made & st & Hlin & Hf). exists made, st. split; [done|].
      destruct (decide (is_ret r = true)) as [Hr|Hr].
      2: { eapply failed_follows; [apply careful_down|done|by intros ->|done]. }
      assert (r = Ret ()) as -> by (by destruct r as [[]| | | |]).
      pose proof (together_migrated _ _ _ Ht) as Hm.
      apply down_inv in H as (t & cur & Hfind & Hcur & [(_ & _ & ->)|(to & rt & _ & Hrt & _ & _ & H1 & H2)]); try done.
      2: { intros t Ht'. by eapply chained_distinct, migrated_chained. }
      destruct (decide (later rt (t_rows t) = [])) as [El|El]; [by rewrite H1|]. specialize (H2 El) as [_ H2].
      intros t' Ht'. unfold has_table in Ht'. rewrite H2, lookup_insert in Ht'. injection Ht' as <-.
      destruct (follows_finds _ _ _ Hf Hfind) as (pre & post & Em & E).
      assert (chained t) as Hc by (by eapply migrated_finds). cbn [t_rows].
      apply elem_of_list_split in Hrt as (l1 & l2 & Erows). destruct Hc as (_ & _ & _ & Hinc & _).
      rewrite Erows in Hinc. destruct (increasing_split _ _ _ Hinc) as [_ Eu]. rewrite Erows, Eu.
      rewrite Erows in E. replace (l1 ++ rt :: l2) with ((l1 ++ [rt]) ++ l2) in E by (by rewrite <- (assoc (++))).
      rewrite fmap_app in E. destruct (r_version <$> l1 ++ [rt]) as [|w ws] eqn:Ew.
      { by destruct l1. }
      injection E as -> E. exists ws, ((r_version <$> l2) ++ post). split; [by rewrite (assoc (++)), E|done].
  Qed.

  Lemma together_current d db t :
    together sem ident schema (fun n => n <> L "stage") d db -> has_table db schema t ->
    exists cur names, newest (t_rows t) cur /\
      (forall k, (db_current_version ident schema (k, Session db db)).1 = Killed \/
                 (db_current_version ident schema (k, Session db db)).1 = Ret (r_version cur)) /\
      v_name <$> (r_version <$> t_rows t) = L "init" :: names /\
      path d (L "init") names (v_name (r_version cur)) /\
      forall r, r ∈ t_rows t -> stored d (v_name (r_version r)) (r_version r).
  Proof.
    intros Htog Ht. destruct (together_follows _ _ Htog) as (made & st & Hlin & Hf).
    destruct (Hf t Ht) as (pre & post & -> & E).
    pose proof (together_migrated _ _ _ Htog) as Hm.
    pose proof (migrated_chained sem ident schema Hident db t Hm Ht) as Hc.
    pose proof Hc as (_ & _ & _ & Hinc & _).
    destruct (t_rows t) as [|cur rows _] eqn:Erows using rev_ind; [done|].
    exists cur, (v_name <$> pre). pose proof Hlin as (Hd & Hl & _ & _).
    assert (newest (rows ++ [cur]) cur) as Hnew by (by apply newest_last).
    split; [done|]. split; [|split; [|split]].
    - intros k. assert (Session db db = W schema db (pg_user db) t) as ->.
      { unfold W. unfold has_table in Ht. rewrite (insert_id _ _ _ Ht). by destruct db. }
      destruct (current_step ident schema db Hident k (pg_user db) t) as [K|[k' ->]]; [by left|right].
      rewrite Erows, newest_first_increasing by done. by rewrite reverse_app.
    - by rewrite E.
    - change (L "init") with (v_name new_init).
      assert (r_version cur = default new_init (last pre)) as ->.
      { rewrite fmap_app in E. cbn [fmap list_fmap] in E. apply (f_equal last) in E. rewrite last_snoc, last_cons in E.
        destruct (last pre); injection E as ->; done. }
      apply (linked_path d [] new_init ((pre ++ post) ++ [st])); [done|done|]. exists (post ++ [st]). by rewrite <- (assoc (++)).
    - intros r Hr. apply (holds_stored _ _ _ _ Hd). split; [|done].
      assert (r_version r ∈ new_init :: pre) as Hin by (rewrite <- E; by apply elem_of_list_fmap_1).
      apply elem_of_app. left. apply elem_of_cons in Hin as [->|Hin]; [by left|]. right. apply elem_of_app. by left.
  Qed.
End proofs.

(** ** The name of the metadata schema *)
Section schema_name.
  Context {S : Type} (sem : str -> S -> option S) (ident : str -> option str) (schema : str).
  Lemma misread_prelude {A} (g : version -> io (session S) A) k db :
    ident schema <> Some schema -> pg_schemas db !! schema = None ->
    is_ret ((do _ <- ensure_initialized ident schema; do c <- db_current_version ident schema; g c) (k, Session db db)).1 = false.
  Proof.
    intros Hid Hn.
    assert (forall q, ensure_initialized ident schema (k, Session db db) = (Ret (), q) -> pg_schemas (working q.2) !! schema = None) as He.
    { intros q. unfold ensure_initialized. destruct k as [|k]; [done|]. unfold ibind at 1. unfold meta_schema_exists, istep at 1. simpl.
      rewrite Hn. change (bool_decide (is_Some None)) with false. cbv iota. unfold create_meta_schema.
      destruct (ident schema) as [n|] eqn:En.
      2: { unfold ibind at 1, create_schema, istep. destruct k; [done|]. by rewrite En. }
      assert (n <> schema) as Hne by (by intros ->).
      unfold ibind at 1, create_schema, istep. destruct k as [|k]; [done|]. rewrite En. cbn [working pg_schemas].
      destruct (pg_schemas db !! n); [done|].
      unfold ibind at 1, create_table, istep. destruct k as [|k]; [done|]. rewrite En. cbn [working pg_schemas].
      rewrite lookup_insert. unfold record_version, on_table, istep. destruct k as [|k]; [done|]. rewrite En. cbn [working pg_schemas].
      rewrite lookup_insert. destruct (insert_row new_init (VTable [] 1)) as [r t']. intros [= -> <-]. simpl.
      by rewrite !lookup_insert_ne. }
    unfold ibind at 1. destruct (ensure_initialized ident schema (k, Session db db)) as [[[]|e| | |] [k1 s]] eqn:E; [|done..].
    specialize (He _ eq_refl). simpl in He. unfold ibind at 1, db_current_version, ibind at 1, meta_schema_exists, istep at 1.
    destruct k1 as [|k1]; [done|]. simpl. rewrite He. change (bool_decide (is_Some None)) with false. cbv iota.
    by destruct k1.
  Qed.
  Lemma misread_fails l d version k db r db' :
    ident schema <> Some schema -> pg_schemas db !! schema = None ->
    run (up sem ident l d schema version) k db = (r, db') \/ run (down sem ident schema version) k db = (r, db') ->
    r <> Ret () /\ pg_schemas db' !! schema = None.
  Proof.
    intros Hid Hn Hrun.
    assert (r <> Ret ()) as Hr.
    { intros ->. unfold run in Hrun. destruct Hrun as [H|H].
      - destruct (up sem ident l d schema version (k, Session db db)) as [r [k' s]] eqn:E. injection H as -> _.
        unfold up in E. apply iread_inv in E as [(h & _ & E)|(_ & _ & _ & _ & E)]; [|by destruct (E ())].
        match type of E with ibind _ (fun _ => ibind _ ?g) _ = _ => pose proof (misread_prelude g k db Hid Hn) as K end.
        cbv beta in K. by rewrite E in K.
      - destruct (down sem ident schema version (k, Session db db)) as [r [k' s]] eqn:E. injection H as -> _.
        unfold down in E.
        match type of E with ibind _ (fun _ => ibind _ ?g) _ = _ => pose proof (misread_prelude g k db Hid Hn) as K end.
        cbv beta in K. by rewrite E in K. }
    split; [done|]. eapply same_contents_fresh; [|exact Hn]. destruct Hrun; [by eapply up_atomic|by eapply down_atomic].
  Qed.
End schema_name.
