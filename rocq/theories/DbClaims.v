(** What the migration commands do. *)
From Verif Require Import Base Text Types Changes Sql History SpecHistory HistoryLemmas HistoryLoad HistoryProofs
  HistoryRun HistoryClaims Dbh SpecDb DbLemmas DbRun DbSteps.
From stdpp Require Import sorting.

Section claims.
  Context {S : Type} (sem : str -> S -> option S) (ident : str -> option str) (schema : str) (db : pg S).
  Hypothesis Hident : ident schema = Some schema.
  Notation W := (W schema db).

  (** ** The database afterwards *)
  Lemma rolled_back_same (x : pg S) : rolled_back (Session x x) = x.
  Proof.
    unfold rolled_back. simpl. destruct x as [u m]. simpl. f_equal. apply map_eq. intros n. rewrite map_lookup_imap.
    by destruct (m !! n) as [[[]|]|].
  Qed.
  Lemma rolled_back_W u t : finds db schema t -> rolled_back (W u t) = db.
  Proof.
    intros Ht. unfold rolled_back, W. simpl. destruct db as [u0 m]. simpl in *. f_equal. apply map_eq. intros n.
    rewrite map_lookup_imap. destruct (decide (n = schema)) as [->|Hne].
    - rewrite lookup_insert. destruct Ht as [Ht|[Ht _]]; unfold has_table in *; simpl in Ht; rewrite Ht; [by destruct t|done].
    - rewrite lookup_insert_ne by done. by destruct (m !! n) as [[[]|]|].
  Qed.
  Definition done_with (u : S) (t : vtable) : pg S := Pg u (<[schema := Some t]> (pg_schemas db)).
  Lemma commit_step k u t :
    killed (commit sem (k, W u t)) \/
    (settled sem u /\ exists k', commit sem (k, W u t) = (Ret (), (k', Session (done_with u t) (done_with u t)))) \/
    (~ settled sem u /\ exists k', commit sem (k, W u t) = (Raise DbError, (k', W u t))).
  Proof.
    destruct k as [|k]; [by left|]. right. unfold commit, istep, settled. cbn [working W pg_user].
    destruct (sem (L "COMMIT") u) as [u'|] eqn:E; [left|right].
    - split; [by exists u'|]. by exists k.
    - split; [by intros []|]. by exists k.
  Qed.

  (** ** Up *)
  Lemma target_from l d h version v :
    plain_dir d -> well_named d -> from_dir l d = Ret h ->
    match version with Some v => get_version d v | None => get_current_version h d end = Ret v ->
    target d version (v_name v).
  Proof.
    intros Hp Hw Hh. destruct version as [n|]; intros H.
    - apply get_version_iff in H. rewrite (Hw _ _ H). split; [done|]. eauto.
    - unfold get_current_version in H. apply get_version_iff in H. rewrite (Hw _ _ H).
      by apply (from_dir_iff l d h Hp) in Hh as (_ & _ & _ & ?).
  Qed.
  Lemma up_inv l d version k db' :
    well_named d -> plain_dir d ->
    run (up sem ident l d schema version) k db = (Ret (), db') ->
    exists t cur to names vs,
      (exists h v, from_dir l d = Ret h /\
        match version with Some v => get_version d v | None => get_current_version h d end = Ret v /\ v_name v = to) /\
      finds db schema t /\ newest (t_rows t) cur /\ target d version to /\
      path d (row_name cur) names to /\ row_name cur ∉ names /\ Forall2 (stored d) names vs /\
      runs sem (vs ≫= v_up) (pg_user db) (pg_user db') /\
      Forall fits vs /\ NoDup (v_name <$> vs) /\ (forall v, v ∈ vs -> v_name v ∉ row_name <$> t_rows t) /\
      (vs = [] -> db' = db) /\
      (vs <> [] -> settled sem (pg_user db') /\ pg_schemas db' = <[schema := Some (after t vs)]> (pg_schemas db)).
  Proof.
    intros Hw Hp. unfold run. destruct (up sem ident l d schema version (k, Session db db)) as [r [k' s]] eqn:E.
    intros [= -> <-]. unfold up in E. apply iread_inv in E as [(h & Hh & E)|(_ & _ & _ & _ & E)]; [|by destruct (E ())].
    match type of E with ibind _ (fun _ => ibind _ ?g) _ = _ =>
      destruct (prelude ident schema db Hident g k) as [K|[(t & cur & rest & k1 & Ht & Hcur & K)|[_ K]]]
    end.
    1: { unfold killed in K. cbv beta in K. rewrite E in K. done. }
    2: { cbv beta in K. rewrite E in K. done. }
    cbv beta in K. rewrite E in K. symmetry in K.
    apply iread_inv in K as [(v & Hv & K)|(_ & _ & _ & _ & K)]; [|by destruct (K ())].
    apply iread_inv in K as [(names & Hn & K)|(_ & _ & _ & _ & K)]; [|by destruct (K ())].
    assert (exists h v', from_dir l d = Ret h /\
        match version with Some v => get_version d v | None => get_current_version h d end = Ret v' /\ v_name v' = v_name v) as Hex
      by (exists h, v; done).
    apply (target_from l d h) in Hv; [|done..]. apply (range_named_iff d _ _ _ Hw) in Hn as [Hn1 Hn2].
    exists t, cur, (v_name v), names.
    destruct names as [|n names].
    - exists []. injection K as _ <-. rewrite rolled_back_W by done.
      split; [exact Hex|]. split; [done|]. split; [by eapply newest_first_newest|]. split; [done|]. split; [done|]. split; [done|].
      split; [constructor|]. split; [constructor|]. split; [constructor|]. split; [constructor|].
      split; [by intros w ?%elem_of_nil|]. by split.
    - unfold ibind at 1 in K.
      destruct (apply_versions sem ident d schema (n :: names) (k1, W (pg_user db) t)) as [[[]|e| | |] q] eqn:Ea; try done.
      apply (apply_inv sem ident schema db Hident) in Ea as (vs & u' & k2 & H1 & H2 & -> & H3 & H4 & H5 & _).
      destruct (commit_step k2 u' (after t vs)) as [Kc|[[Hset [k3 Kc]]|[_ [k3 Kc]]]].
      { unfold killed in Kc. by rewrite K in Kc. }
      2: { by rewrite K in Kc. }
      rewrite K in Kc. injection Kc as -> ->. rewrite rolled_back_same. exists vs.
      split; [exact Hex|]. split; [done|]. split; [by eapply newest_first_newest|]. split; [done|]. split; [done|]. split; [done|].
      split; [done|]. split; [done|]. split; [done|]. split; [done|]. split; [done|].
      split; [|done]. intros ->. by apply Forall2_nil_inv_r in H1.
  Qed.

  (** With a chained table and versions that fit, only the statements can fail. *)
  Lemma path_linked d a ns b vs :
    path d a ns b -> well_named d -> Forall2 (stored d) ns vs ->
    linked (Some a) vs /\ b = match last vs with Some v => v_name v | None => a end.
  Proof.
    intros Hp Hw. revert vs. induction Hp as [v Hv|ns b c v Hp IH Hv Hpr]; intros vs Hs.
    - apply Forall2_nil_inv_l in Hs as ->. done.
    - apply Forall2_app_inv_l in Hs as (vs1 & vs2 & H1 & H2 & ->).
      apply Forall2_cons_inv_l in H2 as (w & vs3 & H2 & H3 & ->). apply Forall2_nil_inv_l in H3 as ->.
      rewrite (stored_unique _ _ _ _ H2 Hv). destruct (IH vs1 H1) as [L1 Hb]. rewrite last_snoc.
      split; [|by rewrite (Hw _ _ Hv)]. apply linked_app. split; [done|]. split; [|done]. rewrite Hpr, Hb.
      by destruct (last vs1).
  Qed.
  Lemma path_stored d a ns b : path d a ns b -> exists vs, Forall2 (stored d) ns vs.
  Proof.
    induction 1 as [v Hv|ns b c v Hp [vs IH] Hv Hpr]; [exists []; constructor|].
    exists (vs ++ [v]). apply Forall2_app; [done|]. by constructor; [|constructor].
  Qed.
  Lemma up_forward l d version k r db' t cur to v_to names vs h :
    well_named d -> from_dir l d = Ret h ->
    finds db schema t -> chained t -> newest (t_rows t) cur ->
    match version with Some v => get_version d v | None => get_current_version h d end = Ret v_to -> v_name v_to = to ->
    path d (row_name cur) names to -> row_name cur ∉ names -> Forall2 (stored d) names vs ->
    Forall fits vs -> NoDup (v_name <$> vs) -> (forall v, v ∈ vs -> v_name v ∉ row_name <$> t_rows t) ->
    (t_next t + Z.of_nat (length vs) <= max_order + 1)%Z \/ vs = [] ->
    run (up sem ident l d schema version) k db = (r, db') -> r <> Killed ->
    (exists u', runs sem (vs ≫= v_up) (pg_user db) u' /\ (vs = [] \/ settled sem u') /\ r = Ret () /\
       db' = match vs with [] => db | _ => done_with u' (after t vs) end) \/
    ((forall u', ~ runs sem (vs ≫= v_up) (pg_user db) u') /\ r = Abort) \/
    (exists u', runs sem (vs ≫= v_up) (pg_user db) u' /\ vs <> [] /\ ~ settled sem u' /\ r = Raise DbError).
  Proof.
    intros Hw Hh Ht Hc Hcur Hv <- Hp Hnot Hs Hf Hnd Hnew Hmax. unfold run.
    destruct (up sem ident l d schema version (k, Session db db)) as [r0 [k' s]] eqn:E.
    intros [= -> <-] Hr. unfold up in E.
    rewrite (bind_ret _ _ _ h (k, Session db db)) in E by (unfold iread; by rewrite Hh).
    match type of E with ibind _ (fun _ => ibind _ ?g) _ = _ =>
      destruct (prelude ident schema db Hident g k) as [K|[(t' & cur' & rest & k1 & Ht' & Hcur' & K)|[K _]]]
    end.
    1: { unfold killed in K. cbv beta in K. rewrite E in K. done. }
    2: { by destruct (K t cur). }
    cbv beta in K. rewrite E in K. clear E.
    rewrite (finds_unique _ _ _ _ Ht' Ht) in *. clear Ht' t'.
    destruct Hc as (_ & Hl & Hnames & Hinc & Hord).
    assert (cur' = cur) as ->.
    { apply (newest_unique (t_rows t)); [by apply increasing_nodup|by eapply newest_first_newest|done]. }
    rewrite (bind_ret _ _ _ v_to (k1, W (pg_user db) t)) in K by (unfold iread; by rewrite Hv).
    rewrite (bind_ret _ _ _ names (k1, W (pg_user db) t)) in K
      by (unfold iread; f_equal; apply (range_named_iff _ _ _ _ Hw); by split).
    destruct names as [|n names].
    - apply Forall2_nil_inv_l in Hs as ->. left. exists (pg_user db). split; [constructor|]. split; [by left|].
      injection K as -> _ ->. split; [done|]. by rewrite rolled_back_W.
    - destruct vs as [|v vs]; [by apply Forall2_nil_inv_r in Hs|].
      destruct (path_linked _ _ _ _ _ Hp Hw Hs) as [Hlink _].
      destruct (apply_forward sem ident schema db Hident d (n :: names) (v :: vs) k1 (pg_user db) t (row_name cur))
        as [Ka|[(u' & k2 & R & Ka)|[Hno Ka]]]; try done.
      + apply elem_of_list_fmap_1. by destruct Hcur.
      + by destruct Hmax.
      + apply (bind_killed _ (fun _ => commit sem)) in Ka. unfold killed in Ka. rewrite <- K in Ka. done.
      + rewrite (bind_ret _ _ _ _ _ Ka) in K.
        destruct (commit_step k2 u' (after t (v :: vs))) as [Kc|[[Hset [k3 Kc]]|[Hset [k3 Kc]]]].
        * unfold killed in Kc. rewrite <- K in Kc. done.
        * left. exists u'. split; [done|]. split; [by right|].
          rewrite Kc in K. injection K as -> _ ->. split; [done|]. by rewrite rolled_back_same.
        * right. right. exists u'. rewrite Kc in K. by injection K as -> _ ->.
      + right. left. split; [done|]. apply (bind_abort _ (fun _ => commit sem)) in Ka. rewrite <- K in Ka. done.
  Qed.

  (** ** Down *)
  Lemma applied_order_step n k u t :
    NoDup (row_name <$> t_rows t) ->
    killed (get_applied_order ident schema n (k, W u t)) \/
    exists k', (exists r, r ∈ t_rows t /\ row_name r = n /\
      get_applied_order ident schema n (k, W u t) = (Ret (Some (r_order r)), (k', W u t))) \/
    (n ∉ row_name <$> t_rows t /\ get_applied_order ident schema n (k, W u t) = (Ret None, (k', W u t))).
  Proof.
    intros Hn. destruct k as [|k]; [by left|]. right. exists k. unfold get_applied_order. rewrite ask_step by done.
    destruct (filter (fun r => row_name r = n) (t_rows t)) as [|r [|r' rest]] eqn:E.
    - right. split; [|done]. intros (r & -> & Hr)%elem_of_list_fmap.
      assert (r ∈ filter (fun x => row_name x = row_name r) (t_rows t)) as K by (by apply elem_of_list_filter).
      rewrite E in K. by apply elem_of_nil in K.
    - left. exists r. assert (r ∈ filter (fun x => row_name x = n) (t_rows t)) as [? ?]%elem_of_list_filter; [|done].
      rewrite E. by left.
    - exfalso.
      assert (NoDup (row_name <$> filter (fun r => row_name r = n) (t_rows t))) as K.
      { clear E. revert Hn. generalize (t_rows t). induction l as [|x l IH]; [done|]. rewrite fmap_cons, NoDup_cons.
        intros [H1 H2]. rewrite filter_cons. destruct (decide _); [|by apply IH]. rewrite fmap_cons. constructor; [|by apply IH].
        intros (y & Ey & [_ Hy]%elem_of_list_filter)%elem_of_list_fmap. apply H1. rewrite Ey. by apply elem_of_list_fmap_1. }
      assert (forall x, x ∈ filter (fun x => row_name x = n) (t_rows t) -> row_name x = n) as Hall
        by (intros x [? _]%elem_of_list_filter; done).
      rewrite E in K, Hall. rewrite !fmap_cons in K. apply NoDup_cons in K as [K _]. apply K.
      rewrite (Hall r), (Hall r') by (by repeat constructor). by left.
  Qed.
  Lemma range_step from to k u t :
    NoDup (row_name <$> t_rows t) ->
    killed (get_downward_range ident schema from to (k, W u t)) \/
    (exists rf rt k', rf ∈ t_rows t /\ row_name rf = from /\ rt ∈ t_rows t /\ row_name rt = to /\
      get_downward_range ident schema from to (k, W u t) =
      (Ret (row_name <$> newest_first (filter (fun r => r_order r <= r_order rf /\ r_order rt < r_order r)%Z (t_rows t))), (k', W u t))) \/
    ((from ∉ row_name <$> t_rows t \/ to ∉ row_name <$> t_rows t) /\
     exists n, (get_downward_range ident schema from to (k, W u t)).1 = Raise (NoMatchingVersion n)).
  Proof.
    intros Hn. unfold get_downward_range.
    destruct (applied_order_step from k u t Hn) as [K|[k1 Hf]]; [left; by apply bind_killed|].
    assert (exists o, get_applied_order ident schema from (k, W u t) = (Ret o, (k1, W u t))) as [o Eo].
    { destruct Hf as [(r & _ & _ & Hf)|[_ Hf]]; eauto. }
    rewrite (bind_ret _ _ _ _ _ Eo).
    destruct (applied_order_step to k1 u t Hn) as [K|[k2 Ht]]; [left; by apply bind_killed|].
    assert (exists o', get_applied_order ident schema to (k1, W u t) = (Ret o', (k2, W u t))) as [o' Eo'].
    { destruct Ht as [(r & _ & _ & Ht)|[_ Ht]]; eauto. }
    rewrite (bind_ret _ _ _ _ _ Eo').
    destruct Hf as [(rf & Hrf & Ef & Hf)|[Hrf Hf]]; rewrite Hf in Eo; injection Eo as <-.
    2: { right. right. split; [by left|]. by exists from. }
    destruct Ht as [(rt & Hrt & Et & Ht)|[Hrt Ht]]; rewrite Ht in Eo'; injection Eo' as <-.
    2: { right. right. split; [by right|]. by exists to. }
    destruct k2 as [|k2]; [by left|]. right. left. exists rf, rt, k2. do 4 (split; [done|]). by rewrite ask_step.
  Qed.
  Definition later (rt : row) (rows : list row) : list row := filter (fun r => r_order rt < r_order r)%Z rows.
  Definition up_to (rt : row) (rows : list row) : list row := filter (fun r => r_order r <= r_order rt)%Z rows.
  Lemma range_later rf rt rows :
    newest rows rf -> filter (fun r => r_order r <= r_order rf /\ r_order rt < r_order r)%Z rows = later rt rows.
  Proof.
    intros [_ H]. unfold later. induction rows as [|r rows IH]; [done|]. rewrite !filter_cons.
    assert (forall r', r' ∈ rows -> (r_order r' <= r_order rf)%Z) as H' by (intros r' Hr'; apply H; by right).
    specialize (IH H'). specialize (H r ltac:(by left)). repeat case_decide; try lia; rewrite IH; done.
  Qed.
  Lemma without_later rt t :
    NoDup (row_name <$> t_rows t) -> without t (row_name <$> newest_first (later rt (t_rows t))) = VTable (up_to rt (t_rows t)) (t_next t).
  Proof.
    intros Hn. unfold without, up_to. f_equal.
    assert (forall r, r ∈ t_rows t -> row_name r ∉ row_name <$> newest_first (later rt (t_rows t)) <-> (r_order r <= r_order rt)%Z) as H.
    { intros r Hr. rewrite newest_first_perm. unfold later. split.
      - intros K. apply Z.nlt_ge. intros Hlt. apply K. apply elem_of_list_fmap_1. by apply elem_of_list_filter.
      - intros Hle (r' & E & [Hlt Hr']%elem_of_list_filter)%elem_of_list_fmap.
        rewrite (name_inj (t_rows t) r r') in Hle; [lia|done..]. }
    revert H. generalize (newest_first (later rt (t_rows t))). intros l. generalize (t_rows t). induction l0 as [|r l0 IH]; intros H; [done|].
    rewrite !filter_cons. specialize (IH ltac:(intros r' Hr'; apply H; by right)). rewrite IH.
    specialize (H r ltac:(by left)). repeat case_decide; tauto.
  Qed.
  Lemma later_nodup rt rows : NoDup (row_name <$> rows) -> NoDup (row_name <$> newest_first (later rt rows)).
  Proof.
    rewrite newest_first_perm. unfold later. induction rows as [|r l IH]; [done|]. rewrite fmap_cons, NoDup_cons.
    intros [H1 H2]. rewrite filter_cons. destruct (decide _); [|by apply IH]. rewrite fmap_cons. constructor; [|by apply IH].
    intros (x & E & [_ Hx]%elem_of_list_filter)%elem_of_list_fmap. apply H1. rewrite E. by apply elem_of_list_fmap_1.
  Qed.
  Lemma later_in rt rows r : r ∈ newest_first (later rt rows) -> r ∈ rows.
  Proof. rewrite newest_first_perm. by intros [_ ?]%elem_of_list_filter. Qed.
  Lemma finds_distinct t : (forall t, has_table db schema t -> distinct (t_rows t)) -> finds db schema t -> distinct (t_rows t).
  Proof.
    intros H [Ht|[_ ->]]; [by apply H|]. split; simpl; (constructor; [apply not_elem_of_nil|constructor]).
  Qed.

  Lemma down_inv version k db' :
    (forall t, has_table db schema t -> distinct (t_rows t)) ->
    run (down sem ident schema version) k db = (Ret (), db') ->
    exists t cur, finds db schema t /\ newest (t_rows t) cur /\
      ((version = None /\ v_previous (r_version cur) = None /\ db' = db) \/
       exists to rt, match version with Some n => to = n | None => v_previous (r_version cur) = Some to end /\
         rt ∈ t_rows t /\ row_name rt = to /\
         runs sem ((r_version <$> newest_first (later rt (t_rows t))) ≫= v_down) (pg_user db) (pg_user db') /\
         (later rt (t_rows t) = [] -> db' = db) /\
         (later rt (t_rows t) <> [] -> settled sem (pg_user db') /\
            pg_schemas db' = <[schema := Some (VTable (up_to rt (t_rows t)) (t_next t))]> (pg_schemas db))).
  Proof.
    intros Hd. unfold run. destruct (down sem ident schema version (k, Session db db)) as [r [k' s]] eqn:E.
    intros [= -> <-]. unfold down in E.
    match type of E with ibind _ (fun _ => ibind _ ?g) _ = _ =>
      destruct (prelude ident schema db Hident g k) as [K|[(t & cur & rest & k1 & Ht & Hcur & K)|[_ K]]]
    end.
    1: { unfold killed in K. cbv beta in K. rewrite E in K. done. }
    2: { cbv beta in K. rewrite E in K. done. }
    cbv beta in K. rewrite E in K. symmetry in K. clear E. change (v_name (r_version cur)) with (row_name cur) in K.
    destruct (finds_distinct t Hd Ht) as [Hn Ho]. apply newest_first_newest in Hcur.
    exists t, cur. split; [done|]. split; [done|].
    destruct (match version with Some v => Some v | None => v_previous (r_version cur) end) as [to|] eqn:Eto.
    2: { left. destruct version; [done|]. injection K as _ <-. rewrite rolled_back_W by done. done. }
    right. exists to.
    destruct (range_step (row_name cur) to k1 (pg_user db) t Hn) as [Kr|[(rf & rt & k2 & Hrf & Ef & Hrt & Et & Kr)|[_ [n Kr]]]].
    1: { eapply bind_killed in Kr. unfold killed in Kr. erewrite K in Kr. done. }
    2: { eapply bind_raise in Kr. erewrite K in Kr. done. }
    rewrite (bind_ret _ _ _ _ _ Kr) in K. clear Kr.
    rewrite (name_inj (t_rows t) rf cur Hn Hrf (proj1 Hcur) Ef) in K. rewrite range_later in K by done.
    exists rt. split; [destruct version; congruence|]. split; [done|]. split; [done|].
    destruct (row_name <$> newest_first (later rt (t_rows t))) as [|n names] eqn:En.
    - assert (later rt (t_rows t) = []) as El.
      { apply fmap_nil_inv in En. pose proof (newest_first_perm (later rt (t_rows t))) as Hp. rewrite En in Hp.
        by apply Permutation_nil in Hp. }
      rewrite El. injection K as _ <-. rewrite rolled_back_W by done. split; [constructor|]. by split.
    - unfold ibind at 1 in K. rewrite <- En in K.
      destruct (revert_versions sem ident schema (row_name <$> newest_first (later rt (t_rows t))) (k2, W (pg_user db) t))
        as [[[]|e| | |] q] eqn:Ea; try done.
      apply (revert_inv sem ident schema db Hident) in Ea as (u' & k3 & R & ->);
        [|done|by apply later_nodup|intros x; apply later_in].
      rewrite without_later in K by done.
      destruct (commit_step k3 u' (VTable (up_to rt (t_rows t)) (t_next t))) as [Kc|[[Hset [k4 Kc]]|[_ [k4 Kc]]]].
      { unfold killed in Kc. by rewrite K in Kc. }
      2: { by rewrite K in Kc. }
      rewrite K in Kc. injection Kc as -> ->. rewrite rolled_back_same. split; [done|]. split; [|done].
      intros El. by rewrite El in En.
  Qed.

  Lemma increasing_split pre rt suf :
    increasing (pre ++ rt :: suf) -> later rt (pre ++ rt :: suf) = suf /\ up_to rt (pre ++ rt :: suf) = pre ++ [rt].
  Proof.
    intros (H1 & H2 & H3)%increasing_app. rewrite fmap_cons in H2. apply StronglySorted_inv in H2 as [H2 H4].
    rewrite Forall_forall in H4. unfold later, up_to. rewrite !filter_app, filter_cons_False, filter_cons_True by lia.
    assert (forall x, x ∈ pre -> (r_order x < r_order rt)%Z) as Hpre by (intros x Hx; apply H3; [done|by left]).
    assert (forall x, x ∈ suf -> (r_order rt < r_order x)%Z) as Hsuf by (intros x Hx; apply H4; by apply elem_of_list_fmap_1).
    rewrite (filter_none _ pre), (filter_all _ suf), (filter_all _ pre), (filter_none _ suf); [done|..]; intros x Hx.
    - specialize (Hsuf x Hx). lia.
    - specialize (Hpre x Hx). lia.
    - by apply Hsuf.
    - specialize (Hpre x Hx). lia.
  Qed.
  (** From a chained table every recorded version can be gone back to; only the statements
      can fail. *)
  Lemma down_forward version k r db' t pre rt suf cur :
    finds db schema t -> chained t -> t_rows t = pre ++ rt :: suf -> newest (t_rows t) cur ->
    match version with Some n => row_name rt = n | None => v_previous (r_version cur) = Some (row_name rt) end ->
    run (down sem ident schema version) k db = (r, db') -> r <> Killed ->
    (exists u', runs sem ((r_version <$> reverse suf) ≫= v_down) (pg_user db) u' /\ (suf = [] \/ settled sem u') /\ r = Ret () /\
       db' = match suf with [] => db | _ => done_with u' (VTable (pre ++ [rt]) (t_next t)) end) \/
    ((forall u', ~ runs sem ((r_version <$> reverse suf) ≫= v_down) (pg_user db) u') /\ r = Abort) \/
    (exists u', runs sem ((r_version <$> reverse suf) ≫= v_down) (pg_user db) u' /\ suf <> [] /\ ~ settled sem u' /\ r = Raise DbError).
  Proof.
    intros Ht Hc Hrows Hcur Hto. unfold run.
    destruct (down sem ident schema version (k, Session db db)) as [r0 [k' s]] eqn:E.
    intros [= -> <-] Hr. unfold down in E.
    match type of E with ibind _ (fun _ => ibind _ ?g) _ = _ =>
      destruct (prelude ident schema db Hident g k) as [K|[(t' & cur' & rest & k1 & Ht' & Hcur' & K)|[K _]]]
    end.
    1: { unfold killed in K. cbv beta in K. rewrite E in K. done. }
    2: { by destruct (K t cur). }
    cbv beta in K. rewrite E in K. clear E.
    rewrite (finds_unique _ _ _ _ Ht' Ht) in *. clear Ht' t'.
    destruct Hc as (_ & Hl & Hnames & Hinc & Hord).
    assert (cur' = cur) as ->.
    { apply (newest_unique (t_rows t)); [by apply increasing_nodup|by eapply newest_first_newest|done]. }
    assert (match version with Some v => Some v | None => v_previous (r_version cur) end = Some (row_name rt)) as Eto
      by (destruct version; congruence).
    rewrite Eto in K. change (v_name (r_version cur)) with (row_name cur) in K.
    assert (rt ∈ t_rows t) as Hrt by (rewrite Hrows; apply elem_of_app; right; by left).
    destruct (range_step (row_name cur) (row_name rt) k1 (pg_user db) t Hnames)
      as [Kr|[(rf & rt' & k2 & Hrf & Ef & Hrt' & Et & Kr)|[[Kr|Kr] _]]].
    1: { eapply bind_killed in Kr. unfold killed in Kr. erewrite <- K in Kr. done. }
    2: { exfalso. apply Kr. apply elem_of_list_fmap_1. by destruct Hcur. }
    2: { exfalso. apply Kr. by apply elem_of_list_fmap_1. }
    rewrite (bind_ret _ _ _ _ _ Kr) in K. clear Kr.
    rewrite (name_inj (t_rows t) rf cur Hnames Hrf (proj1 Hcur) Ef) in K.
    rewrite (name_inj (t_rows t) rt' rt Hnames Hrt' Hrt Et) in K. rewrite range_later in K by done.
    pose proof Hinc as Hinc'. rewrite Hrows in Hinc'. destruct (increasing_split _ _ _ Hinc') as [El Eu].
    rewrite Hrows, El in K. apply increasing_app in Hinc' as (_ & Hinc' & _). rewrite fmap_cons in Hinc'.
    apply StronglySorted_inv in Hinc' as [Hinc' _]. rewrite newest_first_increasing in K by done.
    destruct suf as [|x suf _] using rev_ind.
    - left. exists (pg_user db). split; [constructor|]. split; [by left|]. simpl in K. injection K as -> _ ->. split; [done|].
      by rewrite rolled_back_W.
    - assert (exists n ns, row_name <$> reverse (suf ++ [x]) = n :: ns) as (n & ns & En).
      { rewrite reverse_app, reverse_singleton. by eexists _, _. }
      assert (t = VTable ((pre ++ [rt]) ++ (suf ++ [x])) (t_next t)) as Et'.
      { destruct t as [rows o]. simpl in Hrows |- *. rewrite Hrows. by rewrite <- (assoc (++)). }
      rewrite En in K. rewrite <- En in K. cbv iota in K.
      rewrite Et' in K at 1.
      destruct (revert_forward sem ident schema db Hident (pre ++ [rt]) (suf ++ [x]) k2 (pg_user db) (t_next t))
        as [Ka|[(u' & k3 & R & Ka)|[Hno Ka]]].
      + rewrite Et' in Hl. exact Hl.
      + rewrite Et' in Hnames. exact Hnames.
      + eapply bind_killed in Ka. unfold killed in Ka. erewrite <- K in Ka. done.
      + rewrite (bind_ret _ _ _ _ _ Ka) in K.
        destruct (commit_step k3 u' (VTable (pre ++ [rt]) (t_next t))) as [Kc|[[Hset [k4 Kc]]|[Hset [k4 Kc]]]].
        * unfold killed in Kc. rewrite <- K in Kc. done.
        * left. exists u'. split; [done|]. split; [by right|].
          rewrite Kc in K. injection K as -> _ ->. split; [done|]. rewrite rolled_back_same. by destruct suf.
        * right. right. exists u'. rewrite Kc in K. injection K as -> _ ->. split; [done|]. split; [by destruct suf|done].
      + right. left. split; [done|]. eapply bind_abort in Ka. erewrite <- K in Ka. done.
  Qed.
End claims.
