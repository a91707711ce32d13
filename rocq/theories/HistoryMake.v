(** The exact condition under which [make] makes a version that can be used. *)
From Verif Require Import Base Text TextLemmas Types Changes SpecSnapshot Sql History SpecHistory HistoryLemmas HistoryLoad HistoryProofs HistoryRun HistoryClaims.

(** ** The suffix, removed as often as it occurs *)
Lemma trim_rev_ind (P : str -> Prop) :
  (forall s, P s -> P (reverse (L ".yaml") ++ s)) ->
  (forall s, (forall r, s <> reverse (L ".yaml") ++ r) -> P s) ->
  forall s, P s.
Proof.
  intros H1 H2 s. remember (length s) as n eqn:Hn. revert s Hn.
  induction (lt_wf n) as [n _ IH]. intros s ->.
  destruct (starts_with (reverse (L ".yaml")) s) eqn:E.
  - apply starts_with_iff in E as [r ->]. apply H1. eapply IH; [|reflexivity]. rewrite app_length. vm_compute (length (reverse _)). lia.
  - apply H2. intros r Hr. assert (starts_with (reverse (L ".yaml")) s = true); [apply starts_with_iff; by exists r|congruence].
Qed.
Lemma trim_rev_length s : length (trim_rev s) <= length s.
Proof.
  induction s as [s IH|s H] using trim_rev_ind; [|by rewrite trim_rev_stop].
  rewrite trim_rev_step, app_length. lia.
Qed.
Lemma trim_rev_done s r : trim_rev s <> reverse (L ".yaml") ++ r.
Proof.
  induction s as [s IH|s H] using trim_rev_ind; [by rewrite trim_rev_step|]. rewrite trim_rev_stop by done. apply H.
Qed.
Lemma trim_rev_bar x b : trim_rev (x ++ 45%N :: b) = trim_rev x ++ 45%N :: b.
Proof.
  induction x as [x IH|x H] using trim_rev_ind.
  - rewrite <- (assoc_L (++)), !trim_rev_step. done.
  - rewrite (trim_rev_stop x) by done. apply trim_rev_stop. intros r Hr.
    destruct (decide (5 <= length x)) as [Hl|Hl].
    + apply (H (drop 5 x)). rewrite <- (take_drop 5 x) at 1. f_equal.
      rewrite <- (take_app_le x (45%N :: b)) by done. rewrite Hr. reflexivity.
    + assert (x ++ 45%N :: b = reverse (L ".yaml") ++ r) as K by done.
      assert (45%N ∈ reverse (L ".yaml")) as Hin.
      { apply elem_of_list_lookup. exists (length x).
        rewrite <- (lookup_app_l _ r) by (vm_compute (length (reverse _)); lia). rewrite <- K.
        by rewrite lookup_app_r, Nat.sub_diag by lia. }
      revert Hin. apply (bool_decide_unpack _). vm_compute. exact I.
Qed.
Lemma trim_yaml_length s : length (trim_yaml s) <= length s.
Proof. unfold trim_yaml. rewrite reverse_length. etrans; [apply trim_rev_length|]. by rewrite reverse_length. Qed.
Lemma trim_yaml_done s : ~ exists m, trim_yaml s = m ++ L ".yaml".
Proof.
  intros [m Hm]. apply (trim_rev_done (reverse s) (reverse m)). unfold trim_yaml in Hm.
  rewrite <- (reverse_involutive (trim_rev _)), Hm, reverse_app. done.
Qed.
Lemma trim_yaml_file s : trim_yaml (s ++ L ".yaml") = trim_yaml s.
Proof. unfold trim_yaml. by rewrite reverse_app, trim_rev_step. Qed.
Lemma trim_made now x : trim_yaml (now ++ L "-" ++ x) = now ++ L "-" ++ trim_yaml x.
Proof.
  unfold trim_yaml. rewrite !reverse_app. change (reverse (L "-")) with [45%N].
  rewrite <- (assoc_L (++)). simpl app at 2. rewrite trim_rev_bar. rewrite reverse_app. cbn [reverse].
  rewrite reverse_cons, reverse_involutive. by rewrite <- (assoc_L (++)).
Qed.

(** ** Saving *)
Lemma save_ret v k d k' d' :
  save_version v (k, d) = (Ret (), (k', d')) ->
  47%N ∉ v_name v /\ d' = <[v_name v ++ L ".yaml" := Document v]> d.
Proof.
  unfold save_version, ibind, istep, version_file. destruct k as [|k]; [done|]. destruct (decide _); [done|].
  destruct (d !! _) as [[]|]; [done|..]; (destruct k as [|k]; [done|]); intros [= <- <-]; by rewrite insert_insert.
Qed.
Lemma make_ret l now name k d k' d' st :
  stored d (L "stage") st -> ~ (v_changes st = [] /\ v_up st = [] /\ v_down st = []) ->
  make l now name (k, d) = (Ret (), (k', d')) ->
  47%N ∉ made_name now name /\
  d' = <[L "stage" ++ L ".yaml" := Document (new_stage (made_name now name))]>
         (<[made_name now name ++ L ".yaml" := Document (set_name (made_name now name) st)]> d).
Proof.
  intros Hs Hne. unfold make. unfold ibind at 1. unfold iread at 1. cbn [snd]. destruct (from_dir l d); try done.
  unfold ibind at 1. unfold iread at 1. cbn [snd]. apply get_version_iff in Hs. change (L "stage") with STAGE in Hs. rewrite Hs.
  destruct (is_empty st) eqn:E.
  { destruct Hne. revert E. unfold is_empty. rewrite !andb_true_iff, !bool_decide_eq_true.
    intros [[?%nil_length_inv ?%nil_length_inv] ?%nil_length_inv]. done. }
  unfold ibind at 1. destruct (save_version _ _) as [[[]| | | |] [k1 d1]] eqn:E1; try done.
  intros E2. apply save_ret in E1 as [H1 ->], E2 as [_ ->]. done.
Qed.

(** A name that ends in the suffix: the directory does not load. *)
Lemma suffix_breaks l now name x d d' made st :
  linear d made st -> timestamp now -> made_name now name = x ++ L ".yaml" ->
  d' = <[L "stage" ++ L ".yaml" := Document (new_stage (made_name now name))]>
         (<[made_name now name ++ L ".yaml" := Document (set_name (made_name now name) st)]> d) ->
  forall h, from_dir l d' <> Ret h.
Proof.
  intros Hlin [Ht _] Hx Hd' h Hh. unfold from_dir in Hh.
  destruct (read_entries d' (ls l d') ∅) as [m| | | |] eqn:E; try discriminate Hh. clear Hh.
  apply read_entries_iff in E as (ps & Hps & Hnd & _ & _).
  set (f := made_name now name ++ L ".yaml"). set (n0 := trim_yaml f).
  assert (length (made_name now name) >= 16) as Hl16.
  { unfold made_name. rewrite !app_length. simpl. lia. }
  assert (16 <= length n0) as Hn0.
  { unfold n0, f. rewrite trim_yaml_file. unfold made_name. rewrite trim_made, !app_length. simpl. lia. }
  assert (length n0 < length (made_name now name)) as Hlt.
  { unfold n0, f. rewrite trim_yaml_file, Hx, trim_yaml_file, app_length.
    pose proof (trim_yaml_length x). simpl. lia. }
  assert (forall g e, d' !! g = Some e -> g ∈ ls l d') as Hls.
  { intros g e Hg. rewrite ls_perm. apply elem_of_list_fmap. exists (g, e). split; [done|]. by apply elem_of_map_to_list. }
  assert (d' !! f = Some (Document (set_name (made_name now name) st))) as Hf.
  { rewrite Hd'. rewrite lookup_insert_ne; [by rewrite lookup_insert|]. unfold f.
    intros K%(f_equal length). rewrite !app_length in K. change (length (L "stage")) with 5 in K. lia. }
  assert (forall fs ps g, contribs d' fs = Some ps -> g ∈ fs -> exists c, contrib d' g = Some c) as Hin.
  { clear. intros fs. induction fs as [|a fs IH]; intros ps g; [by intros _ ?%elem_of_nil|]. cbn [contribs].
    destruct (contrib d' a) as [c|] eqn:Ea; [|done]. destruct (contribs d' fs) as [cs|] eqn:Es; [|done].
    intros _ [->|Hg]%elem_of_cons; [by exists c|by eapply IH]. }
  assert (forall fs ps g1 g2 c1 c2, contribs d' fs = Some ps -> NoDup fs -> g1 ∈ fs -> g2 ∈ fs -> g1 <> g2 ->
    contrib d' g1 = Some [c1] -> contrib d' g2 = Some [c2] -> c1.1 = c2.1 -> ~ NoDup ps.*1) as Htwo.
  { clear. intros fs. induction fs as [|a fs IH]; intros ps g1 g2 c1 c2; [by intros _ _ ?%elem_of_nil|]. cbn [contribs].
    destruct (contrib d' a) as [c|] eqn:Ea; [|done]. destruct (contribs d' fs) as [cs|] eqn:Es; [|done].
    assert (forall g k, g ∈ fs -> contrib d' g = Some [k] -> k.1 ∈ cs.*1) as Hel.
    { clear -Es. revert cs Es. induction fs as [|b fs IH]; intros cs Es g k Hg Hk; [by apply elem_of_nil in Hg|].
      cbn [contribs] in Es. destruct (contrib d' b) as [cb|] eqn:Eb; [|done]. destruct (contribs d' fs) as [cs'|] eqn:Es'; [|done].
      injection Es as <-. rewrite fmap_app. apply elem_of_app. apply elem_of_cons in Hg as [->|Hg].
      - left. rewrite Hk in Eb. injection Eb as <-. left.
      - right. by eapply IH. }
    intros [= <-] [Hna Hnd]%NoDup_cons Hg1 Hg2 Hne Hc1 Hc2 Heq.
    rewrite fmap_app, NoDup_app. intros (_ & Hdis & Hcs).
    apply elem_of_cons in Hg1, Hg2. destruct Hg1 as [->|Hg1], Hg2 as [->|Hg2]; [done|..].
    - rewrite Hc1 in Ea. injection Ea as <-. apply (Hdis c1.1); [left|]. rewrite Heq. by eapply Hel.
    - rewrite Hc2 in Ea. injection Ea as <-. apply (Hdis c2.1); [left|]. rewrite <- Heq. by eapply Hel.
    - exact (IH cs g1 g2 c1 c2 eq_refl Hnd Hg1 Hg2 Hne Hc1 Hc2 Heq Hcs). }
  destruct (Hin _ _ f Hps (Hls _ _ Hf)) as [c Hc].
  assert (considered d' f = true) as Hcf.
  { unfold considered. rewrite Hf. apply is_yaml_iff. by eexists. }
  pose proof Hc as Hc'. unfold contrib in Hc. rewrite Hcf in Hc.
  destruct (get_version_cases d' (trim_yaml f)) as [(v & Hv & Eg)|Eg]; rewrite Eg in Hc; [|done].
  fold n0 in Hv. destruct Hv as [Hslash Hv].
  assert (stored d n0 v) as Hvd.
  { split; [done|]. rewrite Hd' in Hv. rewrite lookup_insert_ne in Hv.
    2:{ intros K%(f_equal length). rewrite !app_length in K. change (length (L "stage")) with 5 in K. lia. }
    rewrite lookup_insert_ne in Hv; [done|]. intros K%(f_equal length). rewrite !app_length in K. lia. }
  destruct (linear_stored_cases _ _ _ _ _ Hlin Hvd) as [Hvn Hcases].
  assert (exists p, v_previous v = Some p) as [p Hp].
  { destruct Hlin as (_ & Hlk & Hst & _).
    assert (v ∈ made ++ [st]) as Hvm.
    { destruct Hcases as [->|[?| ->]]; [|apply elem_of_app; by left|apply elem_of_app; right; left].
      rewrite Hvn in Hn0. change (length (v_name new_init)) with 4 in Hn0. lia. }
    change ((new_init :: made) ++ [st]) with (new_init :: (made ++ [st])) in Hlk. cbn [linked] in Hlk.
    destruct Hlk as [_ Hlk]. revert Hlk Hvm. generalize (v_name new_init) as a, (made ++ [st]) as vs.
    intros a vs. revert a. induction vs as [|w vs IH]; intros a; [by intros _ ?%elem_of_nil|].
    intros [H1 H2] [->|Hi]%elem_of_cons; [by eexists|by eapply IH]. }
  rewrite Hp in Hc. injection Hc as <-.
  set (f0 := n0 ++ L ".yaml").
  assert (contrib d' f0 = Some [(p, v_name v)]) as Hc0.
  { unfold contrib, considered. unfold f0 at 1. rewrite Hv. 
    assert (is_yaml f0 = true) as -> by (apply is_yaml_iff; by eexists).
    unfold f0. rewrite trim_file.
    - fold n0 in Eg. rewrite Eg, Hp. done.
    - split; [done|]. unfold n0. apply trim_yaml_done. }
  eapply (Htwo _ _ f f0); [exact Hps| |by eapply Hls|by eapply Hls| |exact Hc'|exact Hc0|done|exact Hnd].
  - rewrite ls_perm. apply NoDup_fst_map_to_list.
  - unfold f, f0. intros K%(f_equal length). rewrite !app_length in K. lia.
Qed.

Lemma make_succeeds_iff l l' now name k d st :
  reachable d -> timestamp now ->
  stored d (L "stage") st -> ~ (v_changes st = [] /\ v_up st = [] /\ v_down st = []) ->
  (exists k' d', make l now name (4 + k, d) = (Ret (), (k', d')) /\
     (exists h, from_dir l' d' = Ret h) /\
     (forall n v, stored d n v -> n <> L "stage" -> stored d' n v)) <->
  plain_name (made_name now name) /\ forall v, ~ stored d (made_name now name) v.
Proof.
  intros Hr Ht Hst Hne. pose proof Hr as (made & st0 & Hlin)%reachable_linear.
  assert (st0 = st) as ->.
  { pose proof (linear_stage _ _ _ Hlin) as K. apply get_version_iff in Hst. change (L "stage") with STAGE in Hst. congruence. }
  assert (length (made_name now name) >= 16) as Hl16.
  { unfold made_name. rewrite !app_length. destruct Ht as [Ht _]. simpl. lia. }
  split.
  - intros (k' & d' & Hm & [h Hh] & Hkeep).
    destruct (make_ret _ _ _ _ _ _ _ _ Hst Hne Hm) as [Hslash Hd'].
    split; [split; [done|]|].
    + intros [x Hx]. eapply suffix_breaks; eauto.
    + intros v Hv. destruct (Hkeep _ _ Hv) as [_ Hk].
      { intros K%(f_equal length). change (length (L "stage")) with 5 in K. lia. }
      rewrite Hd', lookup_insert_ne, lookup_insert in Hk.
      2:{ intros K%(f_equal length). rewrite !app_length in K. change (length (L "stage")) with 5 in K. lia. }
      injection Hk as <-.
      destruct (proj1 (reachable_terminates l d Hr)) as [h0 Hh0].
      apply (from_dir_iff l d h0 (reachable_plain d Hr)) in Hh0 as (_ & Hb & _). apply Hb.
      assert (exists p, v_previous st = Some p) as [p Hp].
      { destruct Hlin as (_ & Hlk & _). change ((new_init :: made) ++ [st]) with (new_init :: (made ++ [st])) in Hlk.
        cbn [linked] in Hlk. destruct Hlk as [_ Hlk]. revert Hlk. generalize (v_name new_init) as a.
        induction made as [|w vs IH]; intros a; [intros [? _]; by eexists|]. intros [_ H2]. by eapply IH. }
      exists (made_name now name), (L "stage"), (set_name (made_name now name) st), st, p.
      split; [intros K%(f_equal length); change (length (L "stage")) with 5 in K; lia|]. done.
  - intros [Hp Hf].
    assert (d !! (made_name now name ++ L ".yaml") = None) as Hnone.
    { destruct (d !! _) as [e|] eqn:E; [|done]. destruct Hlin as ((_ & _ & Hd) & _).
      pose proof E as (v & Hv & Hfile & ->)%Hd. destruct (Hf v). split; [apply Hp|done]. }
    destruct (make_runs l now name k d made st Hlin Hnone Hp) as (k' & d' & H). exists k', d'. split; [done|].
    assert (command d d') as Hc by (by eapply command_make).
    assert (reachable d') as Hr' by (by eapply reachable_command).
    split; [exact (proj1 (reachable_terminates l' d' Hr'))|].
    intros n v Hs Hn. eapply made_versions_stay; [exact Hr|by apply rtc_once|done|done].
Qed.
