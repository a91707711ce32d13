(** The commands keep the history linear. *)
From Verif Require Import Base Text TextLemmas Types Changes SpecSnapshot SpecChange SpecDiff Diff ApplyLemmas DiffRun
  DiffOrder Sql History SpecHistory HistoryLemmas HistoryLoad.

(** ** Saving *)
Lemma save_version_cases v k d :
  (save_version v (k, d)).1 = Killed \/
  (save_version v (k, d) = (Raise FileError, (pred k, d)) /\
     (47%N ∈ v_name v \/ d !! (v_name v ++ L ".yaml") = Some Folder)) \/
  (exists k', k = S (S k') /\
     save_version v (k, d) = (Ret (), (k', <[v_name v ++ L ".yaml" := Document v]> d))).
Proof.
  destruct k as [|[|k]]; [by left| |].
  - cbv [save_version ibind istep version_file].
    destruct (decide (47%N ∈ v_name v)); [right; left; auto|].
    destruct (d !! _) as [[]|]; auto.
  - cbv [save_version ibind istep version_file].
    destruct (decide (47%N ∈ v_name v)); [right; left; auto|].
    destruct (d !! _) as [[]|] eqn:E; [by right; left; auto|..]; right; right; eexists; (split; [done|]);
      by rewrite insert_insert.
Qed.
Lemma save_version_inv v k d r k' d' :
  save_version v (k, d) = (r, (k', d')) -> r <> Killed ->
  (d' = d /\ r = Raise FileError /\ (47%N ∈ v_name v \/ d !! (v_name v ++ L ".yaml") = Some Folder)) \/
  (r = Ret () /\ d' = <[v_name v ++ L ".yaml" := Document v]> d).
Proof.
  intros H Hr. destruct (save_version_cases v k d) as [E|[[E ?]|(k1 & -> & E)]]; rewrite H in E; simpl in E.
  - done.
  - injection E as -> -> ->. by left.
  - injection E as -> -> ->. by right.
Qed.

Ltac io_step H :=
  match type of H with
  | ibind (iread ?f) _ (?k, ?d) = _ =>
      unfold ibind, iread at 1 in H; cbn [snd] in H
  end.

(** Reading first, then the rest. *)
Lemma iread_inv {St A B} (f : St -> exec A) (g : A -> io St B) k (s : St) r k' s' :
  ibind (iread f) g (k, s) = (r, (k', s')) ->
  (exists a, f s = Ret a /\ g a (k, s) = (r, (k', s'))) \/
  (s' = s /\ k' = k /\ (forall a, f s <> Ret a) /\
   (r = Killed -> f s = Killed) /\ forall a, r <> Ret a).
Proof.
  unfold ibind, iread. cbn [snd]. destruct (f s) as [a|e| | |] eqn:E.
  - intros H. left. by exists a.
  - intros [= <- <- <-]. by right.
  - intros [= <- <- <-]. by right.
  - intros [= <- <- <-]. by right.
  - intros [= <- <- <-]. by right.
Qed.

(** ** Chains *)
Lemma linked_app p vs ws :
  linked p (vs ++ ws) <->
  linked p vs /\ linked (match last vs with Some v => Some (v_name v) | None => p end) ws.
Proof.
  revert p. induction vs as [|v vs IH]; intros p; [simpl; tauto|]. cbn [app linked]. rewrite IH, last_cons.
  destruct (last vs); tauto.
Qed.
Lemma linked_previous p vs v a :
  linked p vs -> v ∈ vs -> v_previous v = Some a ->
  (p = Some a /\ head vs = Some v) \/ exists vs1 u vs2, vs = vs1 ++ u :: v :: vs2 /\ v_name u = a.
Proof.
  revert p. induction vs as [|w vs IH]; intros p Hl Hv Ha; [by apply elem_of_nil in Hv|].
  destruct Hl as [Hw Hl]. apply elem_of_cons in Hv as [->|Hv].
  - left. by rewrite <- Hw.
  - right. destruct (IH _ Hl Hv Ha) as [[[= E] Hh]|(vs1 & u & vs2 & -> & Hu)].
    + destruct vs as [|x vs]; [done|]. injection Hh as ->. by exists [], w, vs.
    + by exists (w :: vs1), u, vs2.
Qed.
Lemma linked_next p vs1 u v vs2 : linked p (vs1 ++ u :: v :: vs2) -> v_previous v = Some (v_name u).
Proof. intros [_ H]%linked_app. by destruct H as (_ & ? & _). Qed.

(** ** Directories that hold a list of versions *)
Lemma holds_stored d vs n v : holds d vs -> stored d n v <-> v ∈ vs /\ n = v_name v.
Proof.
  intros (Hnd & Hpl & Hd). unfold stored. rewrite Hd. split.
  - intros (_ & w & Hw & Hn & [= <-]). by apply app_inv_tail in Hn.
  - intros [Hv ->]. split; [|by exists v].
    exact (proj1 (proj1 (Forall_forall _ _) Hpl v Hv)).
Qed.
Lemma holds_well_named d vs : holds d vs -> well_named d.
Proof. intros H n v Hv. by apply (holds_stored _ _ _ _ H) in Hv as [_ ->]. Qed.
Lemma holds_plain d vs : holds d vs -> plain_dir d.
Proof.
  intros (Hnd & Hpl & Hd) f (_ & e & He & _). apply Hd in He as (v & Hv & -> & _).
  exists (v_name v). split; [|done]. exact (proj1 (Forall_forall _ _) Hpl v Hv).
Qed.
Lemma holds_name d vs v w : holds d vs -> v ∈ vs -> w ∈ vs -> v_name v = v_name w -> v = w.
Proof.
  intros (Hnd & _ & _) Hv Hw E. apply elem_of_list_lookup in Hv as [i Hi]. apply elem_of_list_lookup in Hw as [j Hj].
  assert (i = j) as ->.
  { eapply (NoDup_lookup (v_name <$> vs)); [done|by rewrite list_lookup_fmap, Hi|rewrite list_lookup_fmap, Hj; simpl; by rewrite E]. }
  congruence.
Qed.
Lemma holds_documents d vs f : holds d vs -> version_entry d f -> exists v, d !! f = Some (Document v).
Proof. intros (_ & _ & Hd) (_ & e & He & _). pose proof He as K. apply Hd in K as (v & _ & _ & ->). by exists v. Qed.

Lemma holds_split_unique d vs vs1 u vs2 ws1 ws2 :
  holds d vs -> vs = vs1 ++ u :: vs2 -> vs = ws1 ++ u :: ws2 -> vs1 = ws1 /\ vs2 = ws2.
Proof.
  intros (Hnd & _ & _) -> H2. apply NoDup_fmap_1 in Hnd.
  assert (length vs1 = length ws1) as Hl.
  { eapply (NoDup_lookup _ _ _ u Hnd); [apply list_lookup_middle; done|]. rewrite H2. by apply list_lookup_middle. }
  apply app_inj_1 in H2 as [? [= ?]]; done.
Qed.

Lemma linked_no_branch d vs : holds d vs -> linked None vs -> ~ branches d.
Proof.
  intros Hd Hl (n & n' & v & v' & p & Hne & Hv & Hv' & Hp & Hp').
  apply (holds_stored _ _ _ _ Hd) in Hv as [Hv ->]. apply (holds_stored _ _ _ _ Hd) in Hv' as [Hv' ->].
  destruct (linked_previous _ _ _ _ Hl Hv Hp) as [[? _]|(vs1 & u & vs2 & E & Hu)]; [done|].
  destruct (linked_previous _ _ _ _ Hl Hv' Hp') as [[? _]|(ws1 & w & ws2 & E' & Hw)]; [done|].
  assert (u = w) as <-.
  { apply (holds_name d vs); [done|..]; [rewrite E|rewrite E'|congruence]; apply elem_of_app; right; left. }
  destruct (holds_split_unique d vs vs1 u (v :: vs2) ws1 (v' :: ws2) Hd E E') as [_ [= -> _]]. done.
Qed.
Lemma linked_follows d vs a b :
  holds d vs -> linked None vs ->
  follows d a b <-> exists vs1 u v vs2, vs = vs1 ++ u :: v :: vs2 /\ v_name u = a /\ v_name v = b.
Proof.
  intros Hd Hl. unfold follows. setoid_rewrite (holds_stored _ _ _ _ Hd). split.
  - intros (n & v & [Hv ->] & Hp & <-).
    destruct (linked_previous _ _ _ _ Hl Hv Hp) as [[? _]|(vs1 & u & vs2 & E & Hu)]; [done|].
    by exists vs1, u, v, vs2.
  - intros (vs1 & u & v & vs2 & -> & <- & <-). exists (v_name v), v. split.
    + split; [|done]. apply elem_of_app; right; right; left.
    + split; [|done]. by eapply linked_next.
Qed.

Lemma linked_path d vs1 u vs2 :
  holds d (vs1 ++ u :: vs2) -> linked None (vs1 ++ u :: vs2) ->
  forall ws, ws `prefix_of` vs2 -> path d (v_name u) (v_name <$> ws) (v_name (default u (last ws))).
Proof.
  intros Hd Hl ws. induction ws as [|w ws IH] using rev_ind; intros [zs Hzs].
  - simpl. eapply path_here. apply (holds_stored _ _ _ _ Hd). split; [|done]. apply elem_of_app; right; left.
  - rewrite fmap_app, last_snoc. simpl. eapply (path_step _ _ _ (v_name (default u (last ws)))).
    + apply IH. exists (w :: zs). by rewrite Hzs, <- (assoc_L (++)).
    + apply (holds_stored _ _ _ _ Hd). split; [|done]. rewrite Hzs. apply elem_of_app; right; right.
      apply elem_of_app; left. apply elem_of_app; right; left.
    + subst vs2. apply linked_app in Hl as [_ [_ Hl]]. rewrite <- (assoc_L (++)) in Hl.
      apply linked_app in Hl as [_ [Hl _]]. rewrite Hl. by destruct (last ws).
Qed.

(** Ranges along the chain. *)
Lemma linked_range d vs1 u ws zs :
  holds d (vs1 ++ u :: ws ++ zs) -> linked None (vs1 ++ u :: ws ++ zs) ->
  get_upward_range d (v_name u) (v_name (default u (last ws))) = Ret (v_name <$> ws).
Proof.
  intros Hd Hl. apply range_named_iff; [by eapply holds_well_named|]. split.
  - eapply linked_path; [done|done|]. by exists zs.
  - destruct Hd as (Hnd & _ & _). rewrite fmap_app, fmap_cons, fmap_app in Hnd.
    apply NoDup_app in Hnd as (_ & _ & [Hnd _]%NoDup_cons). intros K. apply Hnd. apply elem_of_app. by left.
Qed.

Lemma linked_current d vs u v :
  holds d (vs ++ [u; v]) -> linked None (vs ++ [u; v]) -> v_name (default u (head vs)) = L "init" ->
  is_current d (v_name u).
Proof.
  intros Hd Hl Hh. split.
  - assert (forall vs1 w, vs ++ [u] = vs1 ++ [w] -> rtc (follows d) (v_name (default u (head vs))) (v_name u)) as K.
    2:{ rewrite Hh in K. by eapply K. }
    intros _ _ _. clear Hh.
    assert (forall ws w, ws ++ [w] `prefix_of` vs ++ [u] -> rtc (follows d) (v_name (default w (head ws))) (v_name w)) as K.
    2:{ by apply K. }
    intros ws. induction ws as [|x ws IH] using rev_ind; intros w Hp; [done|].
    eapply rtc_r.
    + replace (head (ws ++ [x])) with (head (ws ++ [x] : list version)) by done.
      replace (default w (head (ws ++ [x]))) with (default x (head ws)) by (by destruct ws).
      apply IH. by eapply prefix_app_l.
    + apply (linked_follows _ _ _ _ Hd Hl). destruct Hp as [zs Hzs]. exists ws, x, w, (zs ++ [v]).
      split; [|done]. change [u; v] with ([u] ++ [v]). rewrite (assoc_L (++)), Hzs.
      by rewrite <- !(assoc_L (++)).
  - left. exists (v_name v). split.
    + apply (linked_follows _ _ _ _ Hd Hl). by exists vs, u, v, [].
    + intros x. rewrite (linked_follows _ _ _ _ Hd Hl). intros (vs1 & u' & v' & vs2 & E & Hu & _).
      assert (u' = v) as ->.
      { eapply (holds_name d); [done|..|done].
        - rewrite E. apply elem_of_app; right; left.
        - apply elem_of_app; right; right; left. }
      pose proof (holds_split_unique d _ (vs ++ [u]) v [] vs1 (v' :: vs2) Hd) as [_ ?]; [|done|done].
      by rewrite <- (assoc_L (++)).
Qed.

(** Loading a chain. *)
Lemma linked_loads l d vs u v :
  holds d (vs ++ [u; v]) -> linked None (vs ++ [u; v]) -> v_name (default u (head vs)) = L "init" ->
  exists h, from_dir l d = Ret h /\ current_version h = v_name u.
Proof.
  intros Hd Hl Hh. pose proof (holds_plain _ _ Hd) as Hp.
  destruct (read_entries_outcomes d (ls l d) ∅) as [[m Hm]|[e He]].
  - exists (FSHistory m (v_name u)). split; [|done]. apply from_dir_iff; [done|]. simpl.
    apply (read_entries_plain l d m Hp) in Hm as (H1 & H2 & H3). split; [done|]. split; [done|].
    split; [done|]. by eapply linked_current.
  - exfalso.
    assert (exists m : gmap str str, forall a b, m !! a = Some b <-> follows d a b) as [m Hm].
    { exists (list_to_map (zip (v_name <$> vs ++ [u]) (v_name <$> tail (vs ++ [u; v])))).
      intros a b. rewrite (linked_follows _ _ _ _ Hd Hl).
      rewrite <- elem_of_list_to_map.
      - rewrite elem_of_list_lookup. setoid_rewrite lookup_zip_with_Some. split.
        + intros (i & x & y & [= -> ->] & Hx & Hy).
          rewrite list_lookup_fmap in Hx, Hy. rewrite lookup_tail in Hy.
          apply fmap_Some in Hx as (w & Hw & ->). apply fmap_Some in Hy as (w' & Hw' & ->).
          assert ((vs ++ [u; v]) !! i = Some w) as Hw2.
          { change [u; v] with ([u] ++ [v]). rewrite (assoc_L (++)). by apply lookup_app_l_Some. }
          exists (take i (vs ++ [u; v])), w, w', (drop (S (S i)) (vs ++ [u; v])). split; [|done].
          erewrite <- (drop_S _ _ (S i)) by done. erewrite <- (drop_S _ _ i) by done. by rewrite take_drop.
        + intros (vs1 & w & w' & vs2 & E & <- & <-). exists (length vs1), (v_name w), (v_name w').
          split; [done|]. rewrite !list_lookup_fmap, lookup_tail, E. split.
          * assert ((vs ++ [u]) !! length vs1 = Some w) as ->; [|done].
            assert ((vs ++ [u; v]) !! length vs1 = Some w) as K by (rewrite E; by apply list_lookup_middle).
            change [u; v] with ([u] ++ [v]) in K. rewrite (assoc_L (++)) in K.
            rewrite lookup_app_l in K; [done|]. apply (f_equal length) in E. rewrite !app_length in *. simpl in *. lia.
          * rewrite lookup_app_r by lia. by replace (S (length vs1) - length vs1) with 1 by lia.
      - rewrite fst_zip by (rewrite !fmap_length; destruct vs; simpl; rewrite ?app_length; simpl; lia).
        destruct Hd as (Hnd & _ & _). change [u; v] with ([u] ++ [v]) in Hnd. rewrite (assoc_L (++)), fmap_app in Hnd.
        by apply NoDup_app in Hnd as [? _]. }
    assert (read_entries d (ls l d) ∅ = Ret m) as K; [|congruence].
    apply read_entries_plain; [done|]. split; [intros f; by eapply holds_documents|].
    split; [by eapply linked_no_branch|done].
Qed.
