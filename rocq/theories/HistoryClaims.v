(** What the history theorems rest on. *)
From Verif Require Import Base Text TextLemmas Types Changes SpecSnapshot SpecChange SpecDiff Diff ApplyLemmas
  InvertLemmas DiffSame DiffRun DiffOrder SnapshotExamples Load Yaml Ddl ContentLemmas DefinitionLemmas Sql History SpecHistory HistoryLemmas HistoryLoad
  HistoryProofs HistoryRun.

(** ** Ranges *)
Lemma linked_path_inv d vs a ns b :
  holds d vs -> linked None vs -> path d a ns b ->
  exists vs1 u ws zs, vs = vs1 ++ u :: ws ++ zs /\ v_name u = a /\ ns = v_name <$> ws /\
    b = v_name (default u (last ws)).
Proof.
  intros Hd Hl. induction 1 as [v Hv|ns b c v Hp (vs1 & u & ws & zs & E & Hu & -> & ->) Hv Hpr].
  - apply (holds_stored _ _ _ _ Hd) in Hv as [Hv ->]. apply elem_of_list_split in Hv as (vs1 & vs2 & ->).
    by exists vs1, v, [], vs2.
  - apply (holds_stored _ _ _ _ Hd) in Hv as [Hv ->].
    destruct (linked_previous _ _ _ _ Hl Hv Hpr) as [[? _]|(xs1 & w & xs2 & E' & Hw)]; [done|].
    assert (exists ys, vs1 ++ u :: ws = ys ++ [w]) as [ys Hys].
    { destruct ws as [|x ws _] using rev_ind.
      - exists vs1. assert (u = w) as ->; [|done]. simpl in Hw.
        eapply (holds_name d vs); [done|..|done]; [rewrite E|rewrite E']; apply elem_of_app; right; left.
      - rewrite last_snoc in Hw. simpl in Hw. exists (vs1 ++ u :: ws).
        assert (x = w) as ->; [|by rewrite <- (assoc_L (++))].
        eapply (holds_name d vs); [done|..|done]; [rewrite E|rewrite E'; apply elem_of_app; right; left].
        apply elem_of_app; right; right. apply elem_of_app; left. apply elem_of_app; right; left. }
    assert (vs = ys ++ w :: zs) as Ez.
    { rewrite E, app_comm_cons, (assoc_L (++)), Hys. by rewrite <- (assoc_L (++)). }
    destruct (holds_split_unique d vs ys w zs xs1 (v :: xs2) Hd Ez E') as [-> ->].
    exists vs1, u, (ws ++ [v]), xs2. rewrite last_snoc, fmap_app.
    split; [|done]. rewrite E. by rewrite <- !(assoc_L (++)).
Qed.
Lemma linked_no_circles d vs a b : holds d vs -> linked None vs -> ~ circles d a b.
Proof.
  intros Hd Hl (c & ns & ns' & Hne & _ & Hp & _).
  destruct (linked_path_inv _ _ _ _ _ Hd Hl Hp) as (vs1 & u & ws & zs & E & Hu & -> & Hc).
  destruct ws as [|x ws _] using rev_ind; [done|]. rewrite last_snoc in Hc. simpl in Hc.
  destruct Hd as (Hnd & _ & _). subst vs. rewrite fmap_app, fmap_cons in Hnd.
  apply NoDup_app in Hnd as (_ & _ & [Hn _]%NoDup_cons). apply Hn. rewrite Hu, Hc.
  apply elem_of_list_fmap. exists x. split; [done|]. apply elem_of_app; left. apply elem_of_app; right; left.
Qed.
Lemma reachable_path_fresh d a ns b : reachable d -> path d a ns b -> a ∉ ns.
Proof.
  intros (made & st & Hd & Hl & _)%reachable_linear Hp.
  destruct (linked_path_inv _ _ _ _ _ Hd Hl Hp) as (vs1 & u & ws & zs & E & <- & -> & _).
  destruct Hd as (Hnd & _ & _). rewrite E, fmap_app, fmap_cons, fmap_app in Hnd.
  apply NoDup_app in Hnd as (_ & _ & [Hn _]%NoDup_cons). intros K. apply Hn, elem_of_app. by left.
Qed.
Lemma range_reachable d from to :
  reachable d ->
  (exists l, get_upward_range d from to = Ret l /\ path d from l to) \/
  (exists e, get_upward_range d from to = Raise e /\ forall l, ~ path d from l to).
Proof.
  intros Hr. pose proof Hr as (made & st & Hd & Hl & _)%reachable_linear.
  pose proof (holds_well_named _ _ Hd) as Hw.
  destruct (get_upward_range d from to) as [l|e| | |] eqn:E.
  - left. exists l. split; [done|]. by apply range_named_iff in E as [? _].
  - right. exists e. split; [done|]. intros l Hp.
    assert (get_upward_range d from to = Ret l) as K; [|congruence].
    apply range_named_iff; [done|]. split; [done|]. by eapply reachable_path_fresh.
  - exfalso. unfold get_upward_range in E.
    destruct (range_outcomes (S (size d)) d from to to []) as [[? K]|[K|[K|K]]]; congruence.
  - exfalso. apply range_hang_circles in E. by eapply linked_no_circles in E.
  - exfalso. unfold get_upward_range in E.
    destruct (range_outcomes (S (size d)) d from to to []) as [[? K]|[K|[K|K]]]; congruence.
Qed.
Lemma range_fails d from to :
  (forall l, ~ path d from l to) -> ~ circles d from to -> exists e, get_upward_range d from to = Raise e.
Proof.
  intros Hp Hc. destruct (get_upward_range d from to) as [l|e| | |] eqn:E.
  - apply range_iff in E as (ns & H & _). by apply Hp in H.
  - by exists e.
  - unfold get_upward_range in E.
    destruct (range_outcomes (S (size d)) d from to to []) as [[? K]|[K|[K|K]]]; congruence.
  - by apply range_hang_circles in E.
  - unfold get_upward_range in E.
    destruct (range_outcomes (S (size d)) d from to to []) as [[? K]|[K|[K|K]]]; congruence.
Qed.

(** ** Loading forever *)
Lemma walk_hang_cycle (next : gmap str str) :
  walk_next (S (size next)) next INIT INIT = Hang <->
  exists c, rtc (next_rel next) INIT c /\ tc (next_rel next) c c.
Proof.
  split.
  - intros H.
    destruct (iterate_repeats (next !!.) (dom next : gset str) id INIT) as (i & j & x & Hij & Hi & Hj).
    + intros a b. apply elem_of_dom_2.
    + rewrite size_dom. apply walk_hang_iff in H. eapply iterate_le; [|done]. lia.
    + exists x. split; [apply iterate_rtc; by exists i|].
      assert (iterate (next !!.) (S (j - S i)) x = Some x) as K.
      { pose proof (iterate_add (next !!.) i (S (j - S i)) INIT) as Ha. rewrite Hi in Ha. simpl in Ha.
        replace (i + S (j - S i)) with j in Ha by lia. rewrite Hj in Ha. simpl. by rewrite <- Ha. }
      simpl in K. destruct (next !! x) as [y|] eqn:Ey; [|done]. simpl in K.
      assert (rtc (next_rel next) y x) as Hyx by (apply iterate_rtc; by exists (j - S i)).
      apply rtc_tc in Hyx as [->|Hyx]; [by constructor|]. by eapply tc_l.
  - intros (c & [k Hk]%iterate_rtc & Hc). apply walk_hang_iff.
    assert (exists m, iterate (next !!.) (S m) c = Some c) as [m Hm].
    { inversion Hc as [? ? Hb|? b ? Hb Hb']; subst.
      - exists 0. simpl. unfold next_rel in Hb. by rewrite Hb.
      - apply tc_rtc, iterate_rtc in Hb' as [m Hm]. exists m. simpl. unfold next_rel in Hb. by rewrite Hb. }
    assert (forall n, is_Some (iterate (next !!.) (k + n * S m) INIT)) as Hall.
    { intros n. assert (iterate (next !!.) (k + n * S m) INIT = Some c) as ->; [|by eexists].
      rewrite iterate_add, Hk. simpl. induction n as [|n IHn]; [done|].
      replace (S n * S m) with (S m + n * S m) by lia. rewrite iterate_add, Hm. simpl. done. }
    eapply iterate_le; [|apply (Hall (S (S (size next))))]. lia.
Qed.
Lemma rel_ext_rtc (R S : str -> str -> Prop) a b : (forall x y, R x y <-> S x y) -> rtc R a b -> rtc S a b.
Proof. intros H. induction 1; [done|]. eapply rtc_l; [by apply H|done]. Qed.
Lemma rel_ext_tc (R S : str -> str -> Prop) a b : (forall x y, R x y <-> S x y) -> tc R a b -> tc S a b.
Proof. intros H. induction 1; [by apply tc_once, H|]. eapply tc_l; [by apply H|done]. Qed.
Lemma from_dir_hang_iff l d :
  plain_dir d ->
  from_dir l d = Hang <->
  (forall f, version_entry d f -> exists v, d !! f = Some (Document v)) /\ ~ branches d /\
  exists c, rtc (follows d) (L "init") c /\ tc (follows d) c c.
Proof.
  intros Hd. unfold from_dir.
  destruct (read_entries_outcomes d (ls l d) ∅) as [[m E]|[e E]]; rewrite E; cbn [ebind].
  - pose proof E as (H1 & H2 & H3)%(read_entries_plain l d m Hd).
    assert (walk_next (S (size m)) m INIT INIT = Hang <->
            exists c, rtc (follows d) (L "init") c /\ tc (follows d) c c) as Hw.
    { rewrite walk_hang_cycle. split; intros (c & Hc1 & Hc2); exists c; split.
      - eapply rel_ext_rtc; [exact H3|exact Hc1].
      - eapply rel_ext_tc; [exact H3|exact Hc2].
      - eapply rel_ext_rtc; [|exact Hc1]. intros x y. by rewrite <- (H3 x y).
      - eapply rel_ext_tc; [|exact Hc2]. intros x y. by rewrite <- (H3 x y). }
    split.
    + intros H. split; [done|]. split; [done|]. apply Hw.
      by destruct (walk_next (S (size m)) m INIT INIT).
    + intros (_ & _ & ->%Hw). done.
  - split; [done|]. intros (H1 & H2 & _).
    destruct (read_entries_defined l d Hd H1 H2) as [m E']. congruence.
Qed.
Lemma reachable_terminates l d :
  reachable d ->
  (exists h, from_dir l d = Ret h) /\ (forall from to, get_upward_range d from to <> Hang) /\
  (forall n, calculate_snapshot d n <> Hang).
Proof.
  intros Hr. pose proof Hr as (made & st & Hlin)%reachable_linear. split; [|split].
  - destruct (linear_loads l _ _ _ Hlin) as (h & ? & _). by exists h.
  - intros from to E. destruct (range_reachable d from to Hr) as [(? & ? & _)|(? & ? & _)]; congruence.
  - intros n. unfold calculate_snapshot.
    destruct (range_reachable d INIT n Hr) as [(ns & -> & _)|(? & -> & _)]; [|done]. cbn [ebind].
    destruct (get_version_cases d INIT) as [(v & _ & ->)| ->]; [|done]. cbn [ebind].
    destruct (apply_all (v_changes v) database_new) as [db [[]|e]]; [|done].
    revert db. induction ns as [|x ns IH]; intros db; [done|]. cbn [replay].
    destruct (get_version_cases d x) as [(w & _ & ->)| ->]; [|done]. cbn [ebind].
    by destruct (apply_all (v_changes w) db) as [db' [[]|e]].
Qed.

(** ** Reachable histories *)
Lemma made_in_linear ns d :
  made_in ns d -> exists made st, linear d made st /\ v_name <$> made = ns.
Proof.
  induction 1 as [k k' d H|ns d d' _ (made & st & Hlin & <-) Hc Hsame|ns n d d' _ (made & st & Hlin & <-) Hc Hnew Hfresh].
  - exists [], (new_stage INIT). split; [by eapply init_linear|done].
  - destruct (linear_command_exact _ _ _ _ Hlin Hc) as [(st' & Hlin')|(n & Hn & Hlin')].
    + exists made, st'. by split.
    + exfalso. assert (is_Some (d !! (n ++ L ".yaml"))) as [? K]; [|congruence].
      apply Hsame. destruct Hlin' as ((_ & _ & Hd) & _). eexists. apply Hd.
      exists (set_name n st). split; [|done].
      apply elem_of_app; left. right. apply elem_of_app; right; left.
  - destruct (linear_command_exact _ _ _ _ Hlin Hc) as [(st' & Hlin')|(n' & Hn & Hlin')].
    + exfalso. assert (is_Some (d' !! (n ++ L ".yaml"))) as [e K] by (apply Hnew; by left).
      destruct Hlin' as ((_ & _ & Hd') & _ & Hst' & _). apply Hd' in K as (v & Hv & E & _).
      destruct Hlin as ((_ & _ & Hd) & _ & Hst & _).
      assert (is_Some (d !! (n ++ L ".yaml"))) as [? K]; [|congruence].
      apply elem_of_app in Hv as [Hv|Hv%elem_of_list_singleton].
      * eexists. apply Hd. exists v. split; [apply elem_of_app; by left|done].
      * eexists. apply Hd. exists st. split; [apply elem_of_app; right; left|]. split; [|done].
        rewrite E, Hv. by rewrite Hst, Hst'.
    + eexists _, _. split; [done|]. rewrite fmap_app. simpl. f_equal. f_equal.
      assert (is_Some (d' !! (n' ++ L ".yaml"))) as K.
      { destruct Hlin' as ((_ & _ & Hd) & _). eexists. apply Hd.
        exists (set_name n' st). split; [|done]. apply elem_of_app; left. right. apply elem_of_app; right; left. }
      apply Hnew in K as [K|[e K]]; [by apply app_inv_tail in K|congruence].
Qed.

Lemma linear_made_stored d made st v : linear d made st -> v ∈ made -> stored d (v_name v) v.
Proof.
  intros (Hd & _) Hv. apply (holds_stored _ _ _ _ Hd). split; [|done]. apply elem_of_app; left. by right.
Qed.
Lemma linear_stored_cases d made st n v :
  linear d made st -> stored d n v -> n = v_name v /\ (v = new_init \/ v ∈ made \/ v = st).
Proof.
  intros (Hd & _) Hv. apply (holds_stored _ _ _ _ Hd) in Hv as [Hv ->]. split; [done|].
  apply elem_of_app in Hv as [[->|Hv]%elem_of_cons| ->%elem_of_list_singleton]; auto.
Qed.

(** ** Make *)
Lemma plain_not_init n d made st :
  linear d made st -> d !! (n ++ L ".yaml") = None -> n <> L "stage" /\ n <> L "init".
Proof.
  intros Hlin Hn. pose proof (linear_stage _ _ _ Hlin) as [_ Hs]%get_version_iff.
  destruct Hlin as ((_ & _ & Hd) & _). split; intros ->.
  - change (STAGE ++ L ".yaml") with (L "stage" ++ L ".yaml") in Hs. congruence.
  - assert (d !! (L "init" ++ L ".yaml") = Some (Document new_init)) as K; [|congruence].
    apply Hd. exists new_init. split; [left|done].
Qed.
Lemma stage_file_neq n : n <> L "stage" -> n ++ L ".yaml" <> L "stage.yaml".
Proof. intros Hn E. apply Hn. change (L "stage.yaml") with (L "stage" ++ L ".yaml") in E. by apply app_inv_tail in E. Qed.

Lemma make_moves l now name k d k' d' st :
  reachable d -> d !! (made_name now name ++ L ".yaml") = None -> plain_name (made_name now name) ->
  make l now name (k, d) = (Ret (), (k', d')) -> stored d (L "stage") st ->
  (v_changes st <> [] \/ v_up st <> [] \/ v_down st <> []) ->
  stored d' (made_name now name)
    (Version (made_name now name) (v_previous st) (v_changes st) (v_up st) (v_down st)) /\
  stored d' (L "stage") (Version (L "stage") (Some (made_name now name)) [] [] []) /\
  (forall f, f <> made_name now name ++ L ".yaml" -> f <> L "stage.yaml" -> d' !! f = d !! f) /\
  calculate_snapshot d' (L "stage") = calculate_snapshot d (L "stage").
Proof.
  intros (made & st' & Hlin)%reachable_linear Hf Hp H Hst Hne.
  assert (st' = st) as ->.
  { pose proof (linear_stage _ _ _ Hlin) as K%get_version_iff. by eapply stored_unique. }
  destruct (make_linear _ _ _ _ _ _ _ _ _ _ Hlin Hf (proj1 Hp) H) as [_ [[He _]|[_ ->]]]; [done| |].
  { exfalso. unfold is_empty in He. apply Is_true_true, andb_true_iff in He as [[He1 He2]%andb_true_iff He3].
    apply bool_decide_eq_true, nil_length_inv in He1, He2, He3. destruct Hne as [?|[?|?]]; done. }
  set (n := made_name now name) in *. pose proof (plain_not_init _ _ _ _ Hlin Hf) as [Hn1 Hn2].
  pose proof (linear_made _ _ _ _ Hlin Hf Hp) as Hlin'.
  assert (stored (made_dir d n st) n (set_name n st)) as Hs1.
  { eapply (linear_made_stored _ _ _ (set_name n st)); [done|]. apply elem_of_app; right; left. }
  pose proof (linear_stage _ _ _ Hlin') as Hs2%get_version_iff.
  split; [done|]. split; [done|]. split.
  - intros f Hf1 Hf2. unfold made_dir. rewrite !lookup_insert_ne; done.
  - destruct (linear_parts _ _ _ Hlin) as (db0 & db1 & db2 & H0 & H1 & H2 & _ & Hc).
    change (L "stage") with STAGE. rewrite Hc. eapply (linear_snapshot _ _ _ _ _ Hlin' H0). rewrite <- (assoc_L (++)). apply replays_app. exists db1.
    split; [done|]. econstructor; [done|]. econstructor; [done|constructor].
Qed.
Lemma make_empty l now name k d r k' d' st :
  reachable d -> stored d (L "stage") st -> v_changes st = [] -> v_up st = [] -> v_down st = [] ->
  make l now name (k, d) = (r, (k', d')) -> r = Ret () /\ d' = d.
Proof.
  intros (made & st' & Hlin)%reachable_linear Hst H1 H2 H3 H.
  pose proof (linear_stage _ _ _ Hlin) as K. pose proof K as K'%get_version_iff.
  assert (st' = st) as -> by (by eapply stored_unique). unfold make in H.
  destruct (linear_loads l _ _ _ Hlin) as (h & Hh & _).
  apply iread_inv in H as [(a & _ & H)|(_ & _ & H & _)]; [|by apply H in Hh].
  apply iread_inv in H as [(v & Hv & H)|(_ & _ & H & _)]; [|by apply H in K].
  rewrite K in Hv. injection Hv as <-. unfold is_empty in H. rewrite H1, H2, H3 in H. simpl in H.
  by injection H as <- _ <-.
Qed.
Lemma made_versions_stay d d' n v :
  reachable d -> rtc command d d' -> stored d n v -> n <> L "stage" -> stored d' n v.
Proof.
  intros Hr H Hs Hn. induction H as [d|d d1 d2 Hc _ IH]; [done|]. apply IH; [by eapply reachable_command|].
  pose proof Hr as (made & st & Hlin)%reachable_linear.
  destruct (linear_stored_cases _ _ _ _ _ Hlin Hs) as [-> Hv].
  destruct (linear_command_exact _ _ _ _ Hlin Hc) as [(st' & Hlin')|(n & _ & Hlin')];
    destruct Hlin' as (Hd' & _); apply (holds_stored _ _ _ _ Hd'); (split; [|done]);
    destruct Hv as [->|[Hv| ->]].
  - left.
  - apply elem_of_app; left; by right.
  - by destruct Hlin as (_ & _ & ? & _).
  - left.
  - apply elem_of_app; left; right. apply elem_of_app; by left.
  - by destruct Hlin as (_ & _ & ? & _).
Qed.

(** ** Names *)
Lemma timestamp_fresh d now name :
  reachable d -> timestamp now ->
  (forall n v, stored d n v -> n <> L "init" -> n <> L "stage" ->
     exists t nm, timestamp t /\ t <> now /\ n = made_name t nm) ->
  d !! (made_name now name ++ L ".yaml") = None.
Proof.
  intros (made & st & Hlin)%reachable_linear [Hl _] H.
  destruct (d !! (made_name now name ++ L ".yaml")) as [e|] eqn:E; [|done]. exfalso.
  pose proof Hlin as (Hd & _). pose proof Hd as (_ & _ & Hd'). apply Hd' in E as (v & Hv & E & _).
  apply app_inv_tail in E.
  assert (stored d (v_name v) v) as Hs by (by apply (holds_stored _ _ _ _ Hd)).
  assert (15 < length (made_name now name)) as Hlen.
  { unfold made_name. rewrite !app_length, Hl. simpl. lia. }
  destruct (decide (v_name v = L "init")) as [Hi|Hi]; [rewrite E, Hi in Hlen; simpl in Hlen; lia|].
  destruct (decide (v_name v = L "stage")) as [Hst|Hst]; [rewrite E, Hst in Hlen; simpl in Hlen; lia|].
  destruct (H _ _ Hs Hi Hst) as (t & nm & [Ht _] & Hne & E'). rewrite <- E in E'.
  apply Hne. unfold made_name in E'. apply app_inj_1 in E' as [-> _]; [done|lia].
Qed.
Lemma no_yaml_suffix now (b : str) :
  (~ exists m, b = m ++ L ".yaml") -> ~ exists m, now ++ L "-" ++ b = m ++ L ".yaml".
Proof.
  intros Hb [m E]. apply Hb. rewrite (assoc_L (++)) in E. apply (f_equal reverse) in E.
  rewrite (reverse_app (now ++ L "-")), (reverse_app m) in E.
  apply app_eq_inv in E as [(k & E1 & E2)|(k & E1 & E2)].
  - exists (reverse k). rewrite <- (reverse_involutive b), E1. rewrite reverse_app. by rewrite reverse_involutive.
  - destruct k as [|x k].
    + exists []. rewrite app_nil_r in E1. apply (inj reverse). symmetry. exact E1.
    + exfalso. rewrite reverse_app in E2.
      assert (45%N ∈ reverse (L ".yaml")) as K.
      { rewrite E1. apply elem_of_app; right. injection E2 as <- _. left. }
      revert K. apply (bool_decide_unpack _); vm_compute; exact I.
Qed.
Lemma made_name_plain now name :
  timestamp now ->
  plain_name (made_name now name) <->
  forall n, name = Some n -> 47%N ∉ n /\ ~ exists m, n = m ++ L ".yaml".
Proof.
  intros [Hl Hs]. split.
  - intros [H1 H2] n ->. split.
    + intros K. apply H1. unfold made_name. rewrite !elem_of_app. auto.
    + intros [m ->]. apply H2. exists (now ++ L "-" ++ m). unfold made_name. by rewrite <- !(assoc_L (++)).
  - intros H. unfold made_name. split.
    + rewrite !elem_of_app. intros [K|[K|K]]; [done| |].
      * revert K. apply (bool_decide_unpack _); vm_compute; exact I.
      * destruct name as [n|]; [by destruct (H n eq_refl)|].
        revert K. apply (bool_decide_unpack _); vm_compute; exact I.
    + apply no_yaml_suffix. destruct name as [n|]; [by destruct (H n eq_refl)|].
      intros [m E]. apply (f_equal length) in E. rewrite app_length in E. simpl in E. lia.
Qed.

(** ** Reset *)
Lemma reset_exact l k d r k' d' st :
  reachable d -> stored d (L "stage") st ->
  reset l (k, d) = (r, (k', d')) -> r <> Killed ->
  r = Ret () /\ stored d' (L "stage") (Version (L "stage") (v_previous st) [] [] []) /\
  (forall f, f <> L "stage.yaml" -> d' !! f = d !! f) /\
  exists h, from_dir l d' = Ret h /\ v_previous st = Some (current_version h) /\
    calculate_snapshot d' (L "stage") = calculate_snapshot d (current_version h).
Proof.
  intros Hreach Hst H Hr. pose proof Hreach as (made & st' & Hlin)%reachable_linear.
  assert (st' = st) as ->.
  { pose proof (linear_stage _ _ _ Hlin) as K%get_version_iff. by eapply stored_unique. }
  destruct (reset_linear _ _ _ _ _ _ _ _ Hlin H Hr) as [-> ->]. split; [done|].
  destruct (linear_parts _ _ _ Hlin) as (db0 & db1 & db2 & H0 & H1 & H2 & Hm & Hs).
  assert (linear (<[L "stage.yaml" := Document (version_reset st)]> d) made (version_reset st)) as Hlin'.
  { eapply linear_replace; [done|done|done|done|done|by exists []|by eexists]. }
  pose proof (linear_stage _ _ _ Hlin') as Hs'%get_version_iff.
  pose proof Hlin as (Hd & Hl & Hn & _).
  split; [unfold version_reset in Hs' at 2; by rewrite Hn in Hs'|].
  split; [intros f Hf; by apply lookup_insert_ne|].
  destruct (linear_loads l _ _ _ Hlin') as (h & Hh & Hc). exists h. split; [done|].
  rewrite Hc. split.
  - apply linked_app in Hl as [_ [Hl _]]. rewrite Hl. destruct made as [|u made _] using rev_ind; [done|].
    rewrite app_comm_cons, !last_snoc. done.
  - assert (calculate_snapshot d (v_name (default new_init (last made))) = Ret db1) as ->.
    { eapply linked_snapshot; [exact Hd|exact Hl|done|done]. }
    eapply (linear_snapshot _ _ _ _ _ Hlin' H0). apply replays_app. exists db1. split; [done|].
    econstructor; [done|constructor].
Qed.

(** ** Stage *)
Lemma wf_database_new : wf_db database_new.
Proof. apply map_Forall_empty. Qed.
Lemma linear_snapshot_wf d made st db : linear d made st -> calculate_snapshot d STAGE = Ret db -> wf_db db.
Proof.
  intros Hlin Hc. destruct (linear_parts _ _ _ Hlin) as (db0 & db1 & db2 & H0 & H1 & H2 & Hm & Hs).
  assert (db2 = db) as -> by congruence.
  apply replays_all_changes in H1.
  eapply apply_all_wf; [|exact H2]. eapply apply_all_wf; [|exact H1]. eapply apply_all_wf; [|exact H0].
  exact wf_database_new.
Qed.
Lemma stage_exact l os ot t k d k' d' st :
  reachable d -> stored d (L "stage") st -> wf_db t ->
  stage l os ot (Ret t) (k, d) = (Ret (), (k', d')) ->
  exists source st', calculate_snapshot d (L "stage") = Ret source /\ wf_db source /\
    stored d' (L "stage") st' /\ v_previous st' = v_previous st /\
    v_changes st' = v_changes st ++ compare_diff os ot source t /\
    (forall f, f <> L "stage.yaml" -> d' !! f = d !! f) /\
    calculate_snapshot d' (L "stage") = Ret (expected_db source t) /\
    (forall os' ot', compare_diff os' ot' (expected_db source t) t = [] <-> new_sequences_unowned source t) /\
    (db_equiv (expected_db source t) t <-> index_attributes_agree source t /\ new_sequences_unowned source t).
Proof.
  intros Hreach Hst Hwt H. pose proof Hreach as (made & st' & Hlin)%reachable_linear.
  assert (st' = st) as ->.
  { pose proof (linear_stage _ _ _ Hlin) as K%get_version_iff. by eapply stored_unique. }
  destruct (stage_linear _ _ _ _ _ _ _ _ _ _ _ Hlin H) as [[-> K]|(so & ta & rs & so' & [= <-] & Hso & Hc & Ha & _ & ->)];
    [done|by destruct (K ())|].
  pose proof (linear_snapshot_wf _ _ _ _ Hlin Hso) as Hwf.
  pose proof (diff_result os ot so t so' Hwf Hwt Ha) as [-> _].
  destruct (linear_parts _ _ _ Hlin) as (db0 & db1 & db2 & H0 & H1 & H2 & Hm & Hs).
  assert (db2 = so) as -> by congruence.
  set (st' := staged st (compare_diff os ot so t) rs).
  assert (apply_all (v_changes st') db1 = (expected_db so t, Ok ())) as Hap by (simpl; by rewrite apply_all_app, H2).
  assert (linear (<[L "stage.yaml" := Document st']> d) made st') as Hlin'.
  { eapply linear_replace; [done|done|done|done|done|by eapply scripts_match_staged|by eexists]. }
  exists so, st'. split; [done|]. split; [done|].
  split; [apply get_version_iff, (linear_stage _ _ _ Hlin')|]. split; [done|]. split; [done|].
  split; [intros f Hf; by apply lookup_insert_ne|]. split.
  - eapply (linear_snapshot _ _ _ _ _ Hlin' H0). apply replays_app. exists db1. split; [done|].
    econstructor; [done|constructor].
  - split; [|by apply expected_equiv_iff].
    intros os' ot'. by eapply rediff.
Qed.
(** When [stage] succeeds. *)
Lemma stage_succeeds l os ot t k d source :
  reachable d -> wf_db t -> calculate_snapshot d (L "stage") = Ret source ->
  (exists k' d', stage l os ot (Ret t) (S (S k), d) = (Ret (), (k', d'))) <->
  exists db, apply_all (compare_diff os ot source t) source = (db, Ok ()).
Proof.
  intros (made & st & Hlin)%reachable_linear Hwt Hso. split.
  - intros (k' & d' & H).
    destruct (stage_linear _ _ _ _ _ _ _ _ _ _ _ Hlin H) as [[-> K]|(so & ta & rs & so' & [= <-] & Hso' & Hc & Ha & _ & ->)];
      [done|by destruct (K ())|].
    assert (source = so) as -> by (change (L "stage") with STAGE in Hso; congruence). by eexists.
  - intros [db Hdb]. pose proof (linear_snapshot_wf _ _ _ _ Hlin Hso) as Hwf.
    destruct (diff_reverts os ot source t db Hwf Hwt Hdb) as [rs Hrs].
    destruct (stage_changes_complete _ _ st _ _ Hrs Hdb) as [v Hv].
    destruct (linear_loads l _ _ _ Hlin) as (h & Hh & _). pose proof (linear_stage _ _ _ Hlin) as Hs.
    unfold stage, ibind, iread. cbn [snd].
    change (L "stage") with STAGE in Hso. rewrite Hh, Hso, Hs, Hv.
    destruct (save_version_cases v (S (S k)) d) as [K|[[_ K]|(k' & _ & K)]].
    + exfalso. revert K. cbv [save_version ibind istep version_file].
      destruct (decide _); [done|]. by destruct (d !! _) as [[]|].
    + exfalso. apply stage_changes_inv in Hv as (rs' & db' & _ & _ & ->). simpl in K.
      destruct Hlin as (Hd & _ & Hn & _). rewrite Hn in K. destruct K as [K|K].
      * by apply stage_plain in K.
      * by apply (holds_no_folders _ _ Hd) in K.
    + rewrite K. by eexists _, _.
Qed.

(** ** Crashes *)
(** The directories a killed command can leave behind. *)
Lemma stage_killed l os ot definitions k d k' d' :
  reachable d -> stage l os ot definitions (k, d) = (Killed, (k', d')) -> definitions <> Killed ->
  d' = d \/ d' = <[L "stage.yaml" := Broken]> d.
Proof.
  intros (made & st & Hlin)%reachable_linear H Hk. unfold stage in H. pose proof (linear_stage _ _ _ Hlin) as Hs.
  destruct (linear_calculates _ _ _ Hlin) as [db Hdb].
  apply iread_inv in H as [(h & _ & H)|(-> & _)]; [|by left].
  apply iread_inv in H as [(t & _ & H)|(-> & _)]; [|by left].
  apply iread_inv in H as [(so & _ & H)|(-> & _)]; [|by left].
  apply iread_inv in H as [(v & Hv & H)|(-> & _)]; [|by left].
  apply iread_inv in H as [(v' & Hv' & H)|(-> & _)]; [|by left].
  apply save_version_killed in H as [->| ->]; [by left|right].
  apply stage_changes_inv in Hv' as (rs' & db' & _ & _ & ->). simpl.
  assert (v = st) as -> by congruence. destruct Hlin as (_ & _ & -> & _). done.
Qed.
Lemma reset_killed l k d k' d' :
  reachable d -> reset l (k, d) = (Killed, (k', d')) -> d' = d \/ d' = <[L "stage.yaml" := Broken]> d.
Proof.
  intros (made & st & Hlin)%reachable_linear H. unfold reset in H. pose proof (linear_stage _ _ _ Hlin) as Hs.
  apply iread_inv in H as [(h & _ & H)|(-> & _)]; [|by left].
  apply iread_inv in H as [(v & Hv & H)|(-> & _)]; [|by left].
  apply save_version_killed in H as [->| ->]; [by left|right]. simpl.
  assert (v = st) as -> by congruence. destruct Hlin as (_ & _ & -> & _). done.
Qed.
Lemma make_killed l now name k d k' d' st :
  reachable d -> d !! (made_name now name ++ L ".yaml") = None -> plain_name (made_name now name) ->
  stored d (L "stage") st -> make l now name (k, d) = (Killed, (k', d')) ->
  let n := made_name now name in
  let made := <[n ++ L ".yaml" := Document (Version n (v_previous st) (v_changes st) (v_up st) (v_down st))]> d in
  d' = d \/ d' = <[n ++ L ".yaml" := Broken]> d \/ d' = made \/ d' = <[L "stage.yaml" := Broken]> made.
Proof.
  intros (made & st' & Hlin)%reachable_linear Hf Hp Hst H n. unfold make in H.
  pose proof (linear_stage _ _ _ Hlin) as Hs. pose proof Hst as Hst'%get_version_iff.
  apply iread_inv in H as [(h & _ & H)|(-> & _)]; [|by left].
  apply iread_inv in H as [(v & Hv & H)|(-> & _)]; [|by left].
  assert (v = st) as -> by (change STAGE with (L "stage") in Hv; congruence).
  destruct (is_empty st); [done|]. unfold ibind in H at 1.
  destruct (save_version (set_name (made_name now name) st) (k, d)) as [r1 [k1 d1]] eqn:E1.
  assert (r1 = Killed \/ r1 <> Killed) as [->|Hr1] by (destruct r1; auto).
  { injection H as <- <-. apply save_version_killed in E1 as [->| ->]; [by left|]. right; left. done. }
  apply save_version_plain in E1 as [-> ->]; [|eapply holds_no_folders; by destruct Hlin|apply Hp|done].
  apply save_version_killed in H as [->| ->]; right; right; [by left|by right].
Qed.

Lemma plain_dir_insert d n e : plain_dir d -> plain_name n -> plain_dir (<[n ++ L ".yaml" := e]> d).
Proof.
  intros Hd Hn f (Hf & e' & He & Hne). apply lookup_insert_Some in He as [[<- _]|[_ He]]; [by exists n|].
  apply Hd. split; [done|]. by exists e'.
Qed.
Lemma broken_fails l d n : plain_dir d -> d !! (n ++ L ".yaml") = Some Broken -> exists e, from_dir l d = Raise e.
Proof.
  intros Hd Hn. assert (version_entry d (n ++ L ".yaml")) as He.
  { split; [by exists n|]. by exists Broken. }
  destruct (from_dir_outcomes l d) as [[h E]|[[e E]|E]].
  - apply (from_dir_iff l d h Hd) in E as (H & _). destruct (H _ He) as [v Hv]. congruence.
  - by exists e.
  - apply (from_dir_hang_iff l d Hd) in E as (H & _). destruct (H _ He) as [v Hv]. congruence.
Qed.
Lemma reachable_plain d : reachable d -> plain_dir d.
Proof. intros (made & st & Hd & _)%reachable_linear. by eapply holds_plain. Qed.
Lemma reachable_stage d : reachable d -> exists st, stored d (L "stage") st /\ exists p, v_previous st = Some p.
Proof.
  intros (made & st & Hlin)%reachable_linear. exists st.
  split; [apply get_version_iff, (linear_stage _ _ _ Hlin)|]. destruct Hlin as (_ & Hl & _).
  apply linked_app in Hl as [_ [Hl _]]. rewrite Hl. rewrite last_cons. destruct (last made); by eexists.
Qed.

(** What an interruption leaves. *)
Lemma interrupted_states d d' :
  reachable d -> interrupted d d' ->
  d' = d \/ d' = <[L "stage.yaml" := Broken]> d \/
  exists n st, plain_name n /\ n <> L "stage" /\ d !! (n ++ L ".yaml") = None /\ stored d (L "stage") st /\
    let made := <[n ++ L ".yaml" := Document (Version n (v_previous st) (v_changes st) (v_up st) (v_down st))]> d in
    d' = <[n ++ L ".yaml" := Broken]> d \/ d' = made \/ d' = <[L "stage.yaml" := Broken]> made.
Proof.
  intros Hr Hi. destruct Hi as [l os ot definitions k d k' d' Hk H|l k d k' d' H|l now name k d k' d' Hf Hp H].
  - destruct (stage_killed _ _ _ _ _ _ _ _ Hr H Hk); auto.
  - destruct (reset_killed _ _ _ _ _ Hr H); auto.
  - destruct (reachable_stage d Hr) as (st & Hst & _).
    destruct (make_killed _ _ _ _ _ _ _ _ Hr Hf Hp Hst H) as [->|K]; [by left|]. right; right.
    exists (made_name now name), st. split; [done|]. split; [|done].
    intros E. rewrite E in Hf. destruct Hst as [_ Hst]. congruence.
Qed.
Lemma interrupted_made d d' n v :
  reachable d -> interrupted d d' -> stored d n v -> n <> L "stage" -> stored d' n v.
Proof.
  intros Hr Hi [Hn Hv] Hne. split; [done|]. pose proof (stage_file_neq n Hne) as Hf.
  destruct (interrupted_states d d' Hr Hi) as [->|[->|(m & st & _ & _ & Hm & _ & K)]]; [done|by rewrite lookup_insert_ne|].
  assert (m ++ L ".yaml" <> n ++ L ".yaml") as Hmn by (intros E; rewrite E in Hm; congruence).
  destruct K as [->|[->| ->]]; rewrite !lookup_insert_ne; done.
Qed.
Lemma interrupted_breaks l d d' :
  reachable d -> interrupted d d' -> d' = d \/ exists e, from_dir l d' = Raise e.
Proof.
  intros Hr Hi. pose proof (reachable_plain d Hr) as Hpl. pose proof stage_plain as Hst.
  destruct (interrupted_states d d' Hr Hi) as [->|[->|(n & st & Hn & Hne & Hm & Hs & K)]]; [by left|right..].
  - change (L "stage.yaml") with (L "stage" ++ L ".yaml"). eapply (broken_fails _ _ (L "stage")).
    + by apply plain_dir_insert.
    + apply lookup_insert.
  - destruct K as [->|[->| ->]].
    + eapply (broken_fails _ _ n); [by apply plain_dir_insert|apply lookup_insert].
    + destruct (reachable_stage d Hr) as (st' & Hs' & p & Hp).
      assert (st' = st) as -> by (by eapply stored_unique).
      eapply (branched_fails _ _ n (L "stage")
        (Version n (v_previous st) (v_changes st) (v_up st) (v_down st)) st p); [done|done|done| | |exact Hp|exact Hp].
      * split; [apply Hn|]. apply lookup_insert.
      * destruct Hs as [? Hs]. split; [done|]. rewrite lookup_insert_ne; [done|].
        intros E%app_inv_tail. done.
    + change (L "stage.yaml") with (L "stage" ++ L ".yaml"). eapply (broken_fails _ _ (L "stage")).
      * apply plain_dir_insert; [by apply plain_dir_insert|done].
      * apply lookup_insert.
Qed.
Lemma interrupted_make_keeps l now name k d k' d' st :
  reachable d -> d !! (made_name now name ++ L ".yaml") = None -> plain_name (made_name now name) ->
  stored d (L "stage") st -> make l now name (k, d) = (Killed, (k', d')) ->
  exists n v, stored d' n v /\ v_previous v = v_previous st /\ v_changes v = v_changes st /\
    v_up v = v_up st /\ v_down v = v_down st.
Proof.
  intros Hr Hf Hp Hst H.
  assert (made_name now name <> L "stage") as Hne.
  { intros E. rewrite E in Hf. destruct Hst as [_ Hst]. congruence. }
  assert (made_name now name ++ L ".yaml" <> L "stage" ++ L ".yaml") as Hne' by (by intros E%app_inv_tail).
  destruct (make_killed _ _ _ _ _ _ _ _ Hr Hf Hp Hst H) as [->|[->|[->| ->]]].
  - by exists (L "stage"), st.
  - exists (L "stage"), st. split; [|done]. destruct Hst as [? Hst]. split; [done|]. by rewrite lookup_insert_ne.
  - exists (made_name now name), (Version (made_name now name) (v_previous st) (v_changes st) (v_up st) (v_down st)).
    split; [|done]. split; [apply Hp|apply lookup_insert].
  - exists (made_name now name), (Version (made_name now name) (v_previous st) (v_changes st) (v_up st) (v_down st)).
    split; [|done]. split; [apply Hp|]. rewrite lookup_insert_ne; [apply lookup_insert|].
    change (L "stage.yaml") with (L "stage" ++ L ".yaml"). done.
Qed.
Lemma load_definitions_wf read os o dir t :
  load_snapshot (load_yaml_string read o) os dir = Some t -> wf_db t.
Proof. rewrite load_text_exact. by intros (_ & _ & _ & _ & _ & ? & _). Qed.

Lemma made_in_current ns d l :
  made_in ns d ->
  exists h st, from_dir l d = Ret h /\ current_version h = default (L "init") (last ns) /\
    stored d (L "stage") st /\ v_previous st = Some (current_version h).
Proof.
  intros (made & st & Hlin & <-)%made_in_linear. destruct (linear_loads l _ _ _ Hlin) as (h & Hh & Hc).
  exists h, st. split; [done|]. split; [|split].
  - rewrite Hc, fmap_last. by destruct (last made).
  - apply get_version_iff, (linear_stage _ _ _ Hlin).
  - destruct Hlin as (_ & Hl & _). apply linked_app in Hl as [_ [Hl _]]. rewrite Hl, Hc, last_cons.
    by destruct (last made).
Qed.
Lemma reachable_made_in d : reachable d <-> exists ns, made_in ns d.
Proof.
  split.
  - induction 1 as [k k' d H|d d' Hr (ns & IH) Hc]; [exists []; by eapply made_in_init|].
    pose proof Hr as (made & st & Hlin)%reachable_linear.
    destruct (linear_command_exact _ _ _ _ Hlin Hc) as [(st' & Hlin')|(n & Hn & Hlin')].
    + exists ns. apply (made_in_same _ d); [done|done|]. intros f.
      destruct Hlin as ((_ & _ & Hd) & _ & Hst & _), Hlin' as ((_ & _ & Hd') & _ & Hst' & _).
      unfold is_Some. setoid_rewrite Hd. setoid_rewrite Hd'.
      split; intros (e & v & [Hv|Hv%elem_of_list_singleton]%elem_of_app & -> & _).
      * exists (Document v), v. split; [apply elem_of_app; by left|done].
      * exists (Document st), st. split; [apply elem_of_app; right; left|]. by rewrite Hv, Hst, Hst'.
      * exists (Document v), v. split; [apply elem_of_app; by left|done].
      * exists (Document st'), st'. split; [apply elem_of_app; right; left|]. by rewrite Hv, Hst, Hst'.
    + exists (ns ++ [n]). apply (made_in_new _ _ d); [done|done| |done]. intros f.
      destruct Hlin as ((_ & _ & Hd) & _ & Hst & _), Hlin' as ((_ & _ & Hd') & _).
      unfold is_Some. setoid_rewrite Hd. setoid_rewrite Hd'. split.
      * intros (e & v & Hv & -> & _). rewrite !elem_of_app, elem_of_cons, elem_of_app, !elem_of_list_singleton in Hv.
        destruct Hv as [[->|[Hv| ->]]| ->].
        -- right. exists (Document new_init), new_init. split; [left|done].
        -- right. exists (Document v), v. split; [|done]. apply elem_of_app; left; by right.
        -- by left.
        -- right. exists (Document st), st. split; [apply elem_of_app; right; left|]. by rewrite Hst.
      * intros [->|(e & v & Hv & -> & _)].
        -- eexists _, (set_name n st). split; [|done]. apply elem_of_app; left; right. apply elem_of_app; right; left.
        -- rewrite elem_of_app, elem_of_cons, !elem_of_list_singleton in Hv.
           destruct Hv as [[->|Hv]| ->].
           ++ eexists _, new_init. split; [left|done].
           ++ eexists _, v. split; [|done]. apply elem_of_app; left; right. apply elem_of_app; by left.
           ++ eexists _, (new_stage n). split; [apply elem_of_app; right; left|]. by rewrite Hst.
  - intros [ns H]. induction H; [by eapply reachable_init|by eapply reachable_command..].
Qed.
Lemma reachable_replays d l :
  reachable d ->
  exists h made st db0 db, linear d made st /\ from_dir l d = Ret h /\
    apply_all (v_changes new_init) database_new = (db0, Ok ()) /\
    replays db0 (made ++ [st]) db /\ calculate_snapshot d (L "stage") = Ret db.
Proof.
  intros (made & st & Hlin)%reachable_linear. destruct (linear_loads l _ _ _ Hlin) as (h & Hh & _).
  destruct (linear_parts _ _ _ Hlin) as (db0 & db1 & db2 & H0 & H1 & H2 & _ & Hs).
  exists h, made, st, db0, db2. do 3 (split; [done|]). split; [|done].
  apply replays_app. exists db1. split; [done|]. econstructor; [done|constructor].
Qed.
Lemma collect_reverts_length cs db rs : collect_reverts cs db = Some rs -> length rs = length cs.
Proof.
  revert db rs. induction cs as [|c cs IH]; intros db rs; cbn [collect_reverts]; [by intros [= <-]|].
  destruct (revert c db) as [r|]; [|done]. destruct (apply c db) as [db1 [[]|]]; [|done].
  destruct (collect_reverts cs db1) eqn:E; [|done]. intros [= <-]. simpl. f_equal. by eapply IH.
Qed.
Lemma scripted_match db vs v : scripted db vs -> v ∈ vs -> exists db1, scripts_match db1 v.
Proof.
  induction 1 as [db|db w vs db1 _ Hm _ IH]; [by intros ?%elem_of_nil|].
  intros [->|Hv]%elem_of_cons; [by eexists|auto].
Qed.
Lemma reachable_statements d n v :
  reachable d -> stored d n v -> n <> L "init" ->
  length (v_up v) = length (v_changes v) /\ length (v_down v) = length (v_changes v) /\
  forall i c, v_changes v !! i = Some c -> v_up v !! i = Some (render_sql c).
Proof.
  intros (made & st & Hlin)%reachable_linear Hs Hn.
  destruct (linear_stored_cases _ _ _ _ _ Hlin Hs) as [-> Hv].
  destruct Hlin as (_ & _ & _ & db0 & _ & Hsc).
  destruct (scripted_match _ _ v Hsc) as (db1 & rs & H1 & H2 & H3).
  { destruct Hv as [->|[Hv| ->]]; [by destruct Hn|apply elem_of_app; by left|apply elem_of_app; right; left]. }
  rewrite H2, H3, reverse_length, !fmap_length, (collect_reverts_length _ _ _ H1).
  split; [done|]. split; [done|]. intros i c Hi. by rewrite list_lookup_fmap, Hi.
Qed.
Lemma make_runs l now name k d made st :
  linear d made st -> d !! (made_name now name ++ L ".yaml") = None -> plain_name (made_name now name) ->
  exists k' d', make l now name (4 + k, d) = (Ret (), (k', d')).
Proof.
  intros Hlin Hf Hp. destruct (linear_loads l _ _ _ Hlin) as (h & Hh & _). pose proof (linear_stage _ _ _ Hlin) as Hs.
  unfold make. unfold ibind at 1. unfold iread at 1. cbn [snd]. rewrite Hh.
  unfold ibind at 1. unfold iread at 1. cbn [snd]. rewrite Hs.
  destruct (is_empty st); [by eexists _, _|]. unfold ibind.
  destruct Hlin as (Hd & _ & _).
  assert (forall v k d, no_folders d -> 47%N ∉ v_name v ->
    save_version v (S (S k), d) = (Ret (), (k, <[v_name v ++ L ".yaml" := Document v]> d))) as K.
  { clear. intros v k d Hd Hv. cbv [save_version ibind istep version_file].
    destruct (decide _); [done|]. pose proof (Hd (v_name v ++ L ".yaml")).
    destruct (d !! _) as [[]|]; [done|..]; by rewrite insert_insert. }
  change (4 + k) with (S (S (S (S k)))). rewrite K; [|by eapply holds_no_folders|apply Hp].
  rewrite K; [by eexists _, _| |apply stage_plain].
  intros f. rewrite lookup_insert_Some. intros [[_ ?]|[_ E]]; [done|]. by eapply holds_no_folders in E.
Qed.
Lemma make_succeeds l l' now name k d :
  reachable d -> timestamp now ->
  (forall n v, stored d n v -> n <> L "init" -> n <> L "stage" ->
     exists t nm, timestamp t /\ t <> now /\ n = made_name t nm) ->
  (forall n, name = Some n -> 47%N ∉ n /\ ~ exists m, n = m ++ L ".yaml") ->
  exists k' d', make l now name (4 + k, d) = (Ret (), (k', d')) /\ reachable d' /\
    (exists h, from_dir l' d' = Ret h) /\
    (forall n v, stored d n v -> n <> L "stage" -> stored d' n v).
Proof.
  intros Hr Ht Hd Hn. pose proof (timestamp_fresh _ _ name Hr Ht Hd) as Hf.
  pose proof (proj2 (made_name_plain now name Ht) Hn) as Hp.
  pose proof Hr as (made & st & Hlin)%reachable_linear.
  destruct (make_runs l now name k d made st Hlin Hf Hp) as (k' & d' & H). exists k', d'. split; [done|].
  assert (command d d') as Hc by (by eapply command_make).
  assert (reachable d') as Hr' by (by eapply reachable_command). split; [done|].
  split; [exact (proj1 (reachable_terminates l' d' Hr'))|].
  intros n v Hs Hne. eapply made_versions_stay; [exact Hr|by apply rtc_once|done|done].
Qed.
Lemma interrupted_loads_iff l d d' :
  reachable d -> interrupted d d' -> (exists h, from_dir l d' = Ret h) <-> d' = d.
Proof.
  intros Hr Hi. split.
  - intros [h Hh]. destruct (interrupted_breaks l d d' Hr Hi) as [?|[e He]]; [done|congruence].
  - intros ->. exact (proj1 (reachable_terminates l d Hr)).
Qed.
Lemma stage_fails l os ot definitions k d r k' d' :
  reachable d -> stage l os ot definitions (k, d) = (r, (k', d')) -> r <> Killed ->
  r = Ret () \/ d' = d.
Proof.
  intros (made & st & Hlin)%reachable_linear H Hr.
  destruct (stage_linear _ _ _ _ _ _ _ _ _ _ _ Hlin H Hr) as [[-> _]|(so & ta & rs & so' & _ & _ & _ & _ & -> & _)]; auto.
Qed.
