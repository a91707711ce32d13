(** What the commands do to the history directory. *)
From Verif Require Import Base Text TextLemmas Types Changes SpecSnapshot SpecChange SpecDiff Diff ApplyLemmas
  InvertLemmas DiffRun DiffOrder Sql History SpecHistory HistoryLemmas HistoryLoad HistoryProofs.

Lemma apply_all_nil d : apply_all [] d = (d, Ok ()).
Proof. done. Qed.
Lemma apply_all_cons c cs d :
  apply_all (c :: cs) d = match apply c d with (d1, Ok _) => apply_all cs d1 | (d1, Err e) => (d1, Err e) end.
Proof. unfold apply_all. simpl. unfold mthen. by destruct (apply c d) as [? [[]|]]. Qed.

(** ** Replaying *)
Lemma replay_replays d vs db db' :
  Forall (fun v => stored d (v_name v) v) vs ->
  replay d (v_name <$> vs) db = Ret db' <-> replays db vs db'.
Proof.
  intros H. revert db. induction H as [|v vs Hv _ IH]; intros db.
  - simpl. split; [intros [= ->]; constructor|by inversion 1].
  - rewrite fmap_cons. cbn [replay]. apply get_version_iff in Hv. rewrite Hv. simpl.
    destruct (apply_all (v_changes v) db) as [db1 [[]|e]] eqn:E.
    + rewrite IH. split; [by econstructor|]. inversion 1; subst. congruence.
    + split; [done|]. inversion 1; subst. congruence.
Qed.
Lemma replays_app db vs ws db' :
  replays db (vs ++ ws) db' <-> exists db1, replays db vs db1 /\ replays db1 ws db'.
Proof.
  revert db. induction vs as [|v vs IH]; intros db; simpl.
  - split; [eauto using replays_nil|]. intros (db1 & H & ?). by inversion H; subst.
  - split.
    + inversion 1; subst. apply IH in H5 as (db2 & ? & ?). exists db2. split; [by econstructor|done].
    + intros (db1 & H & ?). inversion H; subst. econstructor; [done|]. apply IH. eauto.
Qed.
Lemma replays_all_changes db vs db' :
  replays db vs db' <-> apply_all (all_changes vs) db = (db', Ok ()).
Proof.
  revert db. induction vs as [|v vs IH]; intros db; unfold all_changes; simpl.
  - split; [by inversion 1|]. intros [= ->]. constructor.
  - rewrite apply_all_app. destruct (apply_all (v_changes v) db) as [db1 [[]|e]] eqn:E.
    + fold (all_changes vs). rewrite <- IH. split; [inversion 1; subst; congruence|by econstructor].
    + split; [inversion 1; subst; congruence|done].
Qed.
Lemma scripted_replays db vs : scripted db vs -> exists db', replays db vs db'.
Proof.
  induction 1 as [db|db v vs db1 E _ _ [db' IH]]; [eexists; constructor|]. exists db'. by econstructor.
Qed.
Lemma scripted_cons_inv db v vs :
  scripted db (v :: vs) ->
  exists db1, apply_all (v_changes v) db = (db1, Ok ()) /\ scripts_match db v /\ scripted db1 vs.
Proof. inversion 1; subst. eauto. Qed.
Lemma replays_cons_inv db v vs db' :
  replays db (v :: vs) db' -> exists db1, apply_all (v_changes v) db = (db1, Ok ()) /\ replays db1 vs db'.
Proof. inversion 1; subst. eauto. Qed.
Lemma scripted_app db vs ws :
  scripted db (vs ++ ws) <-> scripted db vs /\ exists db1, replays db vs db1 /\ scripted db1 ws.
Proof.
  revert db. induction vs as [|v vs IH]; intros db; simpl.
  - split; [intros H; split; [constructor|exists db; split; [constructor|done]]|].
    intros (_ & db1 & H & ?). by inversion H; subst.
  - split.
    + intros (db1 & ? & ? & (? & db2 & ? & ?)%IH)%scripted_cons_inv. split; [by econstructor|].
      exists db2. split; [by econstructor|done].
    + intros ((db2 & E2 & ? & ?)%scripted_cons_inv & db1 & (db3 & E3 & ?)%replays_cons_inv & H2).
      replace db3 with db2 in * by congruence.
      econstructor; [done..|]. apply IH. eauto.
Qed.
Lemma replays_det db vs db1 db2 : replays db vs db1 -> replays db vs db2 -> db1 = db2.
Proof. rewrite !replays_all_changes. congruence. Qed.

(** The snapshot at a version of a chain. *)
Lemma linked_snapshot d vs zs db0 db' :
  holds d ((new_init :: vs) ++ zs) -> linked None ((new_init :: vs) ++ zs) ->
  apply_all (v_changes new_init) database_new = (db0, Ok ()) ->
  calculate_snapshot d (v_name (default new_init (last vs))) = Ret db' <-> replays db0 vs db'.
Proof.
  intros Hd Hl H0. unfold calculate_snapshot.
  pose proof (linked_range d [] new_init vs zs Hd Hl) as Hr. change (v_name new_init) with INIT in Hr at 1.
  rewrite Hr. simpl.
  assert (get_version d INIT = Ret new_init) as ->.
  { apply get_version_iff, (holds_stored _ _ _ _ Hd). split; [left|done]. }
  simpl in *. rewrite H0. apply replay_replays. apply Forall_forall. intros v Hv.
  apply (holds_stored _ _ _ _ Hd). split; [|done]. right. apply elem_of_app. by left.
Qed.

(** ** What a linear history offers *)
Lemma linear_loads l d made st :
  linear d made st ->
  exists h, from_dir l d = Ret h /\ current_version h = v_name (default new_init (last made)).
Proof.
  intros (Hd & Hl & _ & _). destruct made as [|u made _] using rev_ind.
  - apply (linked_loads l d [] new_init st Hd Hl). done.
  - rewrite last_snoc. simpl.
    apply (linked_loads l d (new_init :: made) u st); [| |done].
    + simpl in *. by rewrite <- (assoc_L (++)) in Hd.
    + simpl in *. by rewrite <- (assoc_L (++)) in Hl.
Qed.
Lemma linear_stage d made st : linear d made st -> get_version d STAGE = Ret st.
Proof.
  intros (Hd & _ & Hn & _). apply get_version_iff, (holds_stored _ _ _ _ Hd). split; [|done].
  apply elem_of_app; right; left.
Qed.
Lemma linear_snapshot d made st db db0 :
  linear d made st -> apply_all (v_changes new_init) database_new = (db0, Ok ()) ->
  calculate_snapshot d STAGE = Ret db <-> replays db0 (made ++ [st]) db.
Proof.
  intros (Hd & Hl & Hn & _) H0.
  rewrite <- (linked_snapshot d (made ++ [st]) [] db0 db); [|..|done].
  - rewrite last_snoc. simpl. by rewrite Hn.
  - rewrite app_nil_r. done.
  - rewrite app_nil_r. done.
Qed.
Lemma linear_calculates d made st :
  linear d made st -> exists db, calculate_snapshot d STAGE = Ret db.
Proof.
  intros H. pose proof H as (_ & _ & _ & db0 & H0 & Hs). apply scripted_replays in Hs as [db Hdb].
  exists db. by eapply linear_snapshot.
Qed.
Lemma apply_all_wf cs d d' r : wf_db d -> apply_all cs d = (d', r) -> wf_db d'.
Proof.
  revert d. induction cs as [|c cs IH]; intros d Hw; rewrite ?apply_all_cons; [by intros [= <- _]|].
  destruct (apply c d) as [d1 [[]|e]] eqn:E; pose proof (apply_wf _ _ _ _ Hw E).
  - by apply IH.
  - by intros [= <- _].
Qed.

(** ** Staging *)
Lemma stage_changes_inv cs db v v' :
  stage_changes cs db v = Ret v' ->
  exists rs db', collect_reverts cs db = Some rs /\ apply_all cs db = (db', Ok ()) /\
    v' = Version (v_name v) (v_previous v) (v_changes v ++ cs) (v_up v ++ (render_sql <$> cs))
           (reverse (render_sql <$> rs) ++ v_down v).
Proof.
  revert db v. induction cs as [|c cs IH]; intros db v; cbn [stage_changes].
  - intros [= <-]. exists [], db. split; [done|]. split; [done|]. destruct v; simpl. by rewrite !app_nil_r.
  - cbn [collect_reverts]. rewrite apply_all_cons. destruct (revert c db) as [r|e]; simpl; [|done].
    destruct (apply c db) as [db1 [[]|e]]; [|done]. intros (rs & db' & H1 & H2 & ->)%IH.
    exists (r :: rs), db'. rewrite H1. split; [done|]. split; [done|]. unfold add_down, add_up, add_change. simpl.
    rewrite reverse_cons. by rewrite <- !(assoc_L (++)).
Qed.
Lemma stage_changes_complete cs db v rs db' :
  collect_reverts cs db = Some rs -> apply_all cs db = (db', Ok ()) -> exists v', stage_changes cs db v = Ret v'.
Proof.
  revert db v rs. induction cs as [|c cs IH]; intros db v rs; cbn [stage_changes collect_reverts]; [eauto|]. rewrite apply_all_cons.
  destruct (revert c db) as [r|e]; [|done]. destruct (apply c db) as [db1 [[]|e]]; [|done]. simpl.
  destruct (collect_reverts cs db1) as [rs'|] eqn:E; [|done]. intros _ H. by eapply IH.
Qed.
Lemma collect_reverts_app cs1 cs2 db db1 rs1 rs2 :
  collect_reverts cs1 db = Some rs1 -> apply_all cs1 db = (db1, Ok ()) -> collect_reverts cs2 db1 = Some rs2 ->
  collect_reverts (cs1 ++ cs2) db = Some (rs1 ++ rs2).
Proof.
  revert db rs1. induction cs1 as [|c cs1 IH]; intros db rs1; cbn [app collect_reverts].
  - by intros [= <-] [= ->].
  - rewrite apply_all_cons. destruct (revert c db) as [r|e]; [|done]. destruct (apply c db) as [db2 [[]|e]]; [|done].
    destruct (collect_reverts cs1 db2) as [rs'|] eqn:E; [|done]. intros [= <-] H1 H2.
    by rewrite (IH _ _ E H1 H2).
Qed.

(** ** Replacing the stage, adding a version *)
Lemma holds_replace d vs st st' :
  holds d (vs ++ [st]) -> v_name st' = v_name st ->
  holds (<[v_name st ++ L ".yaml" := Document st']> d) (vs ++ [st']).
Proof.
  intros (Hnd & Hpl & Hd) Hn. split; [|split].
  - rewrite fmap_app in *. simpl in *. by rewrite Hn.
  - apply Forall_app in Hpl as [? Hst]. apply Forall_app. split; [done|].
    apply Forall_cons in Hst as [Hst _]. apply Forall_cons. split; [|done]. cbn beta. rewrite Hn. exact Hst.
  - intros f e. rewrite fmap_app in Hnd. apply NoDup_app in Hnd as (_ & Hx & _).
    rewrite lookup_insert_Some. rewrite Hd. split.
    + intros [[<- <-]|[Hf (v & [Hv|Hv%elem_of_list_singleton]%elem_of_app & -> & ->)]].
      * exists st'. rewrite Hn. split; [apply elem_of_app; right; left|done].
      * exists v. split; [apply elem_of_app; by left|done].
      * by subst v.
    + intros (v & [Hv|Hv%elem_of_list_singleton]%elem_of_app & -> & ->).
      * right. split.
        -- intros E%app_inv_tail. eapply Hx; [by apply (elem_of_list_fmap_1 v_name)|]. rewrite <- E. simpl. left.
        -- exists v. split; [apply elem_of_app; by left|done].
      * subst v. left. by rewrite Hn.
Qed.
Lemma holds_add d vs v :
  holds d vs -> d !! (v_name v ++ L ".yaml") = None -> plain_name (v_name v) ->
  holds (<[v_name v ++ L ".yaml" := Document v]> d) (vs ++ [v]).
Proof.
  intros (Hnd & Hpl & Hd) Hn Hp.
  assert (v_name v ∉ v_name <$> vs) as Hx.
  { intros (w & E & Hw)%elem_of_list_fmap. assert (d !! (v_name v ++ L ".yaml") = Some (Document w)) as K; [|congruence].
    apply Hd. exists w. by rewrite E. }
  split; [|split].
  - rewrite fmap_app. apply NoDup_app. split; [done|]. split; [|simpl; apply NoDup_singleton].
    intros n Hin ->%elem_of_list_singleton. done.
  - apply Forall_app. split; [done|]. by apply Forall_singleton.
  - intros f e. rewrite lookup_insert_Some, Hd. split.
    + intros [[<- <-]|[Hf (w & Hw & -> & ->)]].
      * exists v. split; [apply elem_of_app; right; left|done].
      * exists w. split; [apply elem_of_app; by left|done].
    + intros (w & [Hw| ->%elem_of_list_singleton]%elem_of_app & -> & ->); [right|by left].
      split; [|by exists w]. intros E%app_inv_tail. apply Hx. rewrite E. by apply (elem_of_list_fmap_1 v_name).
Qed.
Lemma holds_swap d vs ws us : holds d (vs ++ ws ++ us) -> holds d (vs ++ us ++ ws).
Proof.
  intros (Hnd & Hpl & Hd).
  assert (vs ++ ws ++ us ≡ₚ vs ++ us ++ ws) as Hp by (apply Permutation_app_head, Permutation_app_comm).
  split; [by rewrite <- Hp|]. split; [by rewrite <- Hp|].
  intros f e. rewrite Hd. by setoid_rewrite Hp.
Qed.

(** Any version with the name and the predecessor of the stage can take its place. *)
Lemma linear_replace d made st st' db0 db :
  linear d made st -> apply_all (v_changes new_init) database_new = (db0, Ok ()) ->
  replays db0 made db -> v_name st' = v_name st -> v_previous st' = v_previous st ->
  scripts_match db st' -> (exists db', apply_all (v_changes st') db = (db', Ok ())) ->
  linear (<[L "stage.yaml" := Document st']> d) made st'.
Proof.
  intros (Hd & Hl & Hn & db0' & H0 & Hs) H0' Hr Hn' Hp Hm [db' Ha].
  replace db0' with db0 in * by congruence.
  split; [|split; [|split]].
  - change (L "stage.yaml") with (L "stage" ++ L ".yaml"). rewrite <- Hn. by apply holds_replace.
  - apply linked_app in Hl as [Hl [Hl' _]]. apply linked_app. split; [done|]. split; [|done]. by rewrite Hp.
  - by rewrite Hn'.
  - exists db0. split; [done|]. apply scripted_app in Hs as [Hs (db1 & Hr' & _)].
    replace db1 with db in * by (by eapply replays_det).
    apply scripted_app. split; [done|]. exists db. split; [done|]. econstructor; [done..|]. constructor.
Qed.

(** [make]: the stage gets a name, and a new stage follows it. *)
Definition made_dir (d : hdir) (n : str) (st : version) : hdir :=
  <[L "stage.yaml" := Document (new_stage n)]> (<[n ++ L ".yaml" := Document (set_name n st)]> d).
Lemma linear_made d made st n :
  linear d made st -> d !! (n ++ L ".yaml") = None -> plain_name n ->
  linear (made_dir d n st) (made ++ [set_name n st]) (new_stage n).
Proof.
  intros (Hd & Hl & Hn & db0 & H0 & Hs) Hf Hp. split; [|split; [|split]].
  - rewrite app_comm_cons, <- (assoc_L (++)).
    apply (holds_swap _ _ [new_stage n] [set_name n st]).
    assert (holds (<[n ++ L ".yaml" := Document (set_name n st)]> d)
              (((new_init :: made) ++ [set_name n st]) ++ [st])) as K.
    { rewrite <- (assoc_L (++)). apply holds_swap. rewrite (assoc_L (++)).
      by apply (holds_add d _ (set_name n st)). }
    apply (holds_replace _ _ _ (new_stage n)) in K; [|done]. rewrite Hn in K.
    apply holds_swap. by rewrite (assoc_L (++)).
  - apply linked_app in Hl as [Hl [Hl' _]].
    rewrite app_comm_cons, <- (assoc_L (++)). apply linked_app. split; [done|]. split; [done|]. by split.
  - done.
  - exists db0. split; [done|]. rewrite <- (assoc_L (++)).
    apply scripted_app in Hs as (Hs & db & Hr & (db1 & ? & H3 & ?)%scripted_cons_inv).
    apply scripted_app. split; [done|]. exists db. split; [done|].
    econstructor; [done| |].
    + destruct H3 as (rs & ? & ? & ?). by exists rs.
    + econstructor; [done| |constructor]. by exists [].
Qed.

(** ** The commands *)
Lemma from_dir_not_killed l d : from_dir l d <> Killed.
Proof. intros H. destruct (from_dir_outcomes l d) as [[? E]|[[? E]|E]]; congruence. Qed.
Lemma get_version_not_killed d n : get_version d n <> Killed.
Proof. unfold get_version. case_decide; [done|]. by destruct (d !! _) as [[]|]. Qed.

Lemma stage_plain : plain_name (L "stage").
Proof.
  split; [apply (bool_decide_unpack _); vm_compute; exact I|].
  intros [m E]. apply (f_equal reverse) in E. rewrite reverse_app in E.
  apply (f_equal head) in E. vm_compute in E. done.
Qed.
Definition no_folders (d : hdir) : Prop := forall f, d !! f <> Some Folder.
Lemma holds_no_folders d vs : holds d vs -> no_folders d.
Proof. intros (_ & _ & Hd) f K. apply Hd in K. by destruct K as (? & _ & _ & ?). Qed.
Lemma save_version_plain v k d r k' d' :
  no_folders d -> 47%N ∉ v_name v ->
  save_version v (k, d) = (r, (k', d')) -> r <> Killed ->
  r = Ret () /\ d' = <[v_name v ++ L ".yaml" := Document v]> d.
Proof.
  intros Hd Hv H Hr. apply save_version_inv in H as [(_ & _ & [K|K])|?]; [done| |done|done]. by apply Hd in K.
Qed.
Lemma save_version_killed v k d k' d' :
  save_version v (k, d) = (Killed, (k', d')) ->
  d' = d \/ d' = <[v_name v ++ L ".yaml" := Broken]> d.
Proof.
  destruct k as [|[|k]]; cbv [save_version ibind istep version_file].
  - intros [= _ <-]. by left.
  - destruct (decide _); [done|]. destruct (d !! _) as [[]|]; [done|..]; intros [= _ <-]; by right.
  - destruct (decide _); [done|]. by destruct (d !! _) as [[]|].
Qed.

Lemma reset_linear l k d r k' d' made st :
  linear d made st -> reset l (k, d) = (r, (k', d')) -> r <> Killed ->
  r = Ret () /\ d' = <[L "stage.yaml" := Document (version_reset st)]> d.
Proof.
  intros Hlin H Hr. unfold reset in H.
  destruct (linear_loads l d made st Hlin) as (h & Hh & _). pose proof (linear_stage _ _ _ Hlin) as Hs.
  apply iread_inv in H as [(a & _ & H)|(_ & _ & H & _)]; [|by apply H in Hh].
  apply iread_inv in H as [(v & Hv & H)|(_ & _ & H & _)]; [|by apply H in Hs].
  rewrite Hs in Hv. injection Hv as <-.
  destruct Hlin as (Hd & _ & Hn & _).
  apply save_version_plain in H; [|by eapply holds_no_folders| |done].
  - simpl in H. by rewrite Hn in H.
  - simpl. rewrite Hn. apply stage_plain.
Qed.

(** What [stage] writes. *)
Definition staged (st : version) (cs rs : list change) : version :=
  Version (v_name st) (v_previous st) (v_changes st ++ cs) (v_up st ++ (render_sql <$> cs))
    (reverse (render_sql <$> rs) ++ v_down st).
Lemma stage_linear l os ot definitions k d r k' d' made st :
  linear d made st -> stage l os ot definitions (k, d) = (r, (k', d')) -> r <> Killed ->
  (d' = d /\ forall a, r <> Ret a) \/
  exists source target rs source',
    definitions = Ret target /\ calculate_snapshot d STAGE = Ret source /\
    collect_reverts (compare_diff os ot source target) source = Some rs /\
    apply_all (compare_diff os ot source target) source = (source', Ok ()) /\
    r = Ret () /\
    d' = <[L "stage.yaml" := Document (staged st (compare_diff os ot source target) rs)]> d.
Proof.
  intros Hlin H Hr. unfold stage in H.
  destruct (linear_loads l d made st Hlin) as (h & Hh & _). pose proof (linear_stage _ _ _ Hlin) as Hs.
  apply iread_inv in H as [(a & _ & H)|(-> & _ & _ & _ & ?)]; [|by left].
  apply iread_inv in H as [(target & Ht & H)|(-> & _ & _ & _ & ?)]; [|by left].
  apply iread_inv in H as [(source & Hso & H)|(-> & _ & _ & _ & ?)]; [|by left].
  apply iread_inv in H as [(v & Hv & H)|(-> & _ & _ & _ & ?)]; [|by left].
  apply iread_inv in H as [(v' & Hv' & H)|(-> & _ & _ & _ & ?)]; [|by left].
  rewrite Hs in Hv. injection Hv as <-. right.
  apply stage_changes_inv in Hv' as (rs & source' & H1 & H2 & ->).
  exists source, target, rs, source'. do 4 (split; [done|]).
  destruct Hlin as (Hd & _ & Hn & _).
  apply save_version_plain in H; [|by eapply holds_no_folders| |done].
  - destruct H as [-> ->]. split; [done|]. unfold staged. simpl. by rewrite Hn.
  - simpl. rewrite Hn. apply stage_plain.
Qed.

Lemma make_linear l now name k d r k' d' made st :
  linear d made st -> d !! (made_name now name ++ L ".yaml") = None -> 47%N ∉ made_name now name ->
  make l now name (k, d) = (r, (k', d')) -> r <> Killed ->
  r = Ret () /\ ((is_empty st /\ d' = d) \/ (~ is_empty st /\ d' = made_dir d (made_name now name) st)).
Proof.
  intros Hlin Hf Hn H Hr. unfold make in H.
  destruct (linear_loads l d made st Hlin) as (h & Hh & _). pose proof (linear_stage _ _ _ Hlin) as Hs.
  apply iread_inv in H as [(a & _ & H)|(_ & _ & H & _)]; [|by apply H in Hh].
  apply iread_inv in H as [(v & Hv & H)|(_ & _ & H & _)]; [|by apply H in Hs].
  rewrite Hs in Hv. injection Hv as <-. destruct (is_empty st) eqn:Ei.
  { injection H as <- _ <-. split; [done|]. by left. }
  unfold ibind in H at 1. destruct (save_version (set_name (made_name now name) st) (k, d)) as [r1 [k1 d1]] eqn:E1.
  assert (r1 <> Killed) as Hr1 by (by intros ->; injection H as <- _ _).
  destruct Hlin as (Hd & _ & _).
  apply save_version_plain in E1 as [-> ->]; [|by eapply holds_no_folders|done|done].
  apply save_version_plain in H as [-> ->]; [|..|done].
  - split; [done|]. right. split; [by intros []|done].
  - intros f. rewrite lookup_insert_Some. intros [[_ ?]|[_ K]]; [done|]. by eapply holds_no_folders in K.
  - apply stage_plain.
Qed.

(** ** The invariant *)
Lemma init_linear k k' d : init_history (k, ∅) = (Ret (), (k', d)) -> linear d [] (new_stage INIT).
Proof.
  intros H. unfold init_history in H. unfold ibind in H at 1.
  destruct (save_version new_init (k, ∅)) as [r1 [k1 d1]] eqn:E1.
  assert (r1 = Ret ()) as -> by (by destruct r1 as [[]| | | |]).
  apply save_version_plain in E1 as [_ ->]; [|by intros f; rewrite lookup_empty|apply (bool_decide_unpack _); vm_compute; exact I|done].
  apply save_version_plain in H as [_ ->]; [| |apply stage_plain|done].
  2:{ intros f. rewrite lookup_insert_Some. by intros [[_ ?]|[_ K]]. }
  assert (holds ∅ []) as H0.
  { split; [constructor|]. split; [constructor|]. intros f e. rewrite lookup_empty. split; [done|].
    by intros (? & ?%elem_of_nil & _). }
  assert (plain_name INIT) as Hi.
  { split; [apply (bool_decide_unpack _); vm_compute; exact I|].
    intros [m E]. apply (f_equal reverse) in E. rewrite reverse_app in E. apply (f_equal head) in E. vm_compute in E. done. }
  apply (holds_add _ _ new_init) in H0; [|done|done].
  apply (holds_add _ _ (new_stage INIT)) in H0; [|vm_compute; done|apply stage_plain].
  split; [done|]. split; [done|]. split; [done|].
  destruct (apply_all (v_changes new_init) database_new) as [db0 r0] eqn:E0.
  exists db0. split; [|econstructor; [done| |constructor]; by exists []].
  assert (r0 = Ok ()) as ->; [|done].
  change r0 with ((db0, r0).2). rewrite <- E0. vm_compute. done.
Qed.

Lemma scripts_match_staged db db1 st cs rs db2 :
  scripts_match db st -> apply_all (v_changes st) db = (db1, Ok ()) ->
  collect_reverts cs db1 = Some rs -> apply_all cs db1 = (db2, Ok ()) ->
  scripts_match db (staged st cs rs).
Proof.
  intros (rs0 & H1 & H2 & H3) Ha Hc Hb. exists (rs0 ++ rs). split; [by eapply collect_reverts_app|]. simpl. split.
  - by rewrite fmap_app, H2.
  - by rewrite fmap_app, reverse_app, H3.
Qed.

Lemma linear_parts d made st :
  linear d made st ->
  exists db0 db1 db2, apply_all (v_changes new_init) database_new = (db0, Ok ()) /\ replays db0 made db1 /\
    apply_all (v_changes st) db1 = (db2, Ok ()) /\ scripts_match db1 st /\ calculate_snapshot d STAGE = Ret db2.
Proof.
  intros H. pose proof H as (Hd & Hl & Hn & db0 & H0 & Hs).
  apply scripted_app in Hs as (_ & db1 & Hr & (db2 & Ha & Hm & _)%scripted_cons_inv).
  exists db0, db1, db2. do 4 (split; [done|]). eapply linear_snapshot; [done|done|].
  apply replays_app. exists db1. split; [done|]. econstructor; [done|constructor].
Qed.

Lemma linear_command_exact d d' made st :
  linear d made st -> command d d' ->
  (exists st', linear d' made st') \/
  (exists n, d !! (n ++ L ".yaml") = None /\ linear d' (made ++ [set_name n st]) (new_stage n)).
Proof.
  intros Hlin Hcmd. destruct Hcmd as [l os ot definitions k d r k' d' H Hr|l k d r k' d' H Hr|l now name k d r k' d' Hf Hp H Hr].
  - left.
    destruct (stage_linear _ _ _ _ _ _ _ _ _ _ _ Hlin H Hr) as [[-> _]|(so & ta & rs & so' & _ & Hso & Hc & Ha & _ & ->)];
      [by exists st|].
    destruct (linear_parts _ _ _ Hlin) as (db0 & db1 & db2 & H0 & H1 & H2 & Hm & Hs).
    assert (db2 = so) as -> by congruence.
    exists (staged st (compare_diff os ot so ta) rs).
    eapply linear_replace; [done|done|done|done|done|by eapply scripts_match_staged|].
    exists so'. simpl. by rewrite apply_all_app, H2.
  - left. destruct (reset_linear _ _ _ _ _ _ _ _ Hlin H Hr) as [_ ->].
    destruct (linear_parts _ _ _ Hlin) as (db0 & db1 & db2 & H0 & H1 & H2 & Hm & Hs).
    exists (version_reset st).
    eapply linear_replace; [done|done|done|done|done|by exists []|by eexists].
  - destruct (make_linear _ _ _ _ _ _ _ _ _ _ Hlin Hf (proj1 Hp) H Hr) as [_ [[_ ->]|[_ ->]]]; [left; by exists st|].
    right. exists (made_name now name). split; [done|]. by apply linear_made.
Qed.
Lemma linear_command d d' made st :
  linear d made st -> command d d' -> exists made' st', linear d' made' st' /\ made `prefix_of` made'.
Proof.
  intros H Hc. destruct (linear_command_exact _ _ _ _ H Hc) as [(st' & ?)|(n & _ & ?)]; [by exists made, st'|].
  eexists _, _. split; [done|]. by eexists.
Qed.

Theorem reachable_linear d : reachable d -> exists made st, linear d made st.
Proof.
  induction 1 as [k k' d H|d d' _ (made & st & IH) Hc].
  - eexists _, _. by eapply init_linear.
  - destruct (linear_command _ _ _ _ IH Hc) as (made' & st' & ? & _). eauto.
Qed.
