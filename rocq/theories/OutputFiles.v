(** What [make], [stage] and [status] tell. *)
From Verif Require Import Base Text Types Changes SpecSnapshot SpecChange SpecDiff Diff DiffOrder Sql Expand Project Definitions World
  History SpecHistory HistoryLemmas HistoryLoad HistoryProofs HistoryRun HistoryClaims Dbh SpecDb SpecProject ProjectLemmas ProjectStatus
  Output SpecOutput OutputLemmas.

Lemma made_not_stage now name : made_name now name <> L "stage".
Proof.
  intros E. assert (45%N ∈ L "stage") as K.
  { rewrite <- E. unfold made_name. apply elem_of_app. right. by left. }
  revert K. vm_compute. intros K. repeat (apply elem_of_cons in K as [K|K]; [done|]). by apply elem_of_nil in K.
Qed.
Lemma saved_name v p q : save_version v p = (Ret (), q) -> 47%N ∉ v_name v.
Proof.
  destruct p as [[|k] d]; cbv [save_version ibind istep]; [done|]. by destruct (decide (47%N ∈ v_name v)).
Qed.
Lemma make_tells green l now name k d r k' d' out :
  make_told green l now name (k, d) = ((r, (k', d')), out) ->
  (out = [] /\ d' = d /\ r <> Ret ()) \/
  exists v, stored d (L "stage") v /\
    ((v_changes v = [] /\ v_up v = [] /\ v_down v = [] /\ out = [L "Nothing to make. Stage is empty."] /\ d' = d /\ r = Ret ()) \/
     (~ (v_changes v = [] /\ v_up v = [] /\ v_down v = []) /\ out = [L "Made version: " ++ green (made_name now name)] /\
      (r = Ret () ->
       stored d' (made_name now name) (Version (made_name now name) (v_previous v) (v_changes v) (v_up v) (v_down v)) /\
       stored d' (L "stage") (Version (L "stage") (Some (made_name now name)) [] [] [])))).
Proof.
  intros H. unfold make_told in H. apply quietly_read_inv in H as [(h & _ & H)|(_ & [= _ ->] & -> & Hr)].
  2: { left. split; [done|]. split; [done|]. intros ->. by destruct (Hr ()). }
  apply quietly_read_inv in H as [(v & Hv & H)|(_ & [= _ ->] & -> & Hr)].
  2: { left. split; [done|]. split; [done|]. intros ->. by destruct (Hr ()). }
  apply get_version_iff in Hv. change STAGE with (L "stage") in Hv.
  destruct (History.is_empty v) eqn:Ei.
  - apply say_inv in H as [(-> & Hq & ->)|(-> & Hq & ->)]; simpl in Hq; subst d'.
    + left. done.
    + right. exists v. split; [done|]. left. unfold History.is_empty in Ei.
      apply andb_true_iff in Ei as [[E1%bool_decide_eq_true E2%bool_decide_eq_true]%andb_true_iff E3%bool_decide_eq_true].
      apply nil_length_inv in E1, E2, E3. done.
  - apply say_then_inv in H as [(-> & Hq & ->)|(k1 & o2 & H & ->)]; [simpl in Hq; subst d'; by left|].
    right. exists v. split; [done|]. right.
    split.
    { intros (E1 & E2 & E3). unfold History.is_empty in Ei. rewrite E1, E2, E3 in Ei. done. }
    set (n := made_name now name) in *.
    apply quietly_inv in H as [(a & [k2 d2] & H1 & H)|(_ & -> & Hr)].
    2: { split; [done|]. intros ->. by destruct (Hr ()). }
    injection H as H <-. split; [done|]. intros ->.
    destruct a. pose proof (saved_name _ _ _ H1) as Hn. cbn [v_name set_name] in Hn.
    apply save_version_inv in H1 as [(_ & E & _)|[_ ->]]; [done| |done].
    apply save_version_inv in H as [(_ & E & _)|[_ ->]]; [done| |done].
    cbn [v_name set_name new_stage]. change STAGE with (L "stage").
    split; (split; [first [exact Hn|apply (bool_decide_unpack _); by vm_compute]|]).
    + rewrite lookup_insert_ne; [by rewrite lookup_insert|]. intros E%app_inj_2; [|done]. destruct E as [E _].
      by apply (made_not_stage now name).
    + by rewrite lookup_insert.
Qed.

Lemma stage_changes_tells (green dimmed : str -> str) (cs : list change) (db : database) (v : version) (k : nat) (d : hdir) r k' d' out :
  stage_changes_told green dimmed cs db v (k, d) = ((r, (k', d')), out) ->
  d' = d /\ out `prefix_of` (staged_line green dimmed <$> cs) /\ (forall v', r = Ret v' -> out = staged_line green dimmed <$> cs /\ stage_changes cs db v = Ret v').
Proof.
  revert k db v out. induction cs as [|c cs IH]; intros k db v out H.
  - injection H as <- _ <- <-. split; [done|]. split; [apply prefix_nil|]. by intros v' [= <-].
  - cbn [stage_changes_told stage_changes] in *. rewrite fmap_cons.
    apply say_then_inv in H as [(-> & Hq & ->)|(k1 & o2 & H & ->)].
    { split; [done|]. split; [apply prefix_nil|done]. }
    apply quietly_read_inv in H as [(x & Hx & H)|(_ & [= _ ->] & -> & Hr)].
    2: { split; [done|]. split; [by apply prefix_cons, prefix_nil|]. intros v' ->. by destruct (Hr v'). }
    rewrite Hx. unfold ebind. destruct (apply c db) as [db' [[]|e]].
    + apply IH in H as (-> & H1 & H2). split; [done|]. split; [by apply prefix_cons|].
      intros v' E. destruct (H2 v' E) as [-> H3]. done.
    + injection H as <- _ <- <-. split; [done|]. split; [by apply prefix_cons, prefix_nil|done].
Qed.
Lemma stage_rest_tells (green dimmed : str -> str) (cs : list change) (source : database) (v : version) (k : nat) (d : hdir) r k' d' out :
  v_name v = L "stage" ->
  tbind (stage_changes_told green dimmed cs source v) (fun v => quietly (save_version v)) (k, d) = ((r, (k', d')), out) ->
  (out `prefix_of` (staged_line green dimmed <$> cs) /\ d' = d /\ r <> Ret ()) \/
  (out = staged_line green dimmed <$> cs /\
   (r = Ret () -> exists st', stored d' (L "stage") st' /\
      v_changes st' = v_changes v ++ cs /\ v_up st' = v_up v ++ (render_sql <$> cs))).
Proof.
  intros Hv [(w & [k1 d1] & o1 & o2 & H1 & H & ->)|[(r1 & H1 & _) Hr]]%tbind_inv.
  - apply stage_changes_tells in H1 as (-> & _ & H1). destruct (H1 w eq_refl) as [-> H2]. injection H as H <-.
    right. rewrite app_nil_r. split; [done|]. intros ->.
    apply save_version_inv in H as [(_ & E & _)|[_ ->]]; [done| |done].
    apply stage_changes_inv in H2 as (rs & db' & _ & _ & ->). eexists. cbn [v_name]. rewrite Hv.
    split; [split; [apply (bool_decide_unpack _); by vm_compute|by rewrite lookup_insert]|]. done.
  - apply stage_changes_tells in H1 as (-> & H1 & _). left. split; [done|]. split; [done|]. intros ->. by destruct (Hr ()).
Qed.
Lemma stage_tells (green dimmed : str -> str) (l : listing) (os ot : iter_order) (definitions : exec database) (k : nat) d r k' d' out :
  well_named d ->
  stage_told green dimmed l os ot definitions (k, d) = ((r, (k', d')), out) ->
  (out = [] /\ d' = d /\ r <> Ret ()) \/
  exists t source st, definitions = Ret t /\ calculate_snapshot d (L "stage") = Ret source /\ stored d (L "stage") st /\
    let cs := compare_diff os ot source t in
    ((out `prefix_of` change_lines green dimmed cs /\ d' = d /\ r <> Ret ()) \/
     (out = change_lines green dimmed cs /\
      (r = Ret () -> exists st', stored d' (L "stage") st' /\
         v_changes st' = v_changes st ++ cs /\ v_up st' = v_up st ++ (render_sql <$> cs)))).
Proof.
  intros Hw H. unfold stage_told in H. apply quietly_read_inv in H as [(h & _ & H)|(_ & [= _ ->] & -> & Hr)].
  2: { left. split; [done|]. split; [done|]. intros ->. by destruct (Hr ()). }
  apply quietly_read_inv in H as [(t & Ht & H)|(_ & [= _ ->] & -> & Hr)].
  2: { left. split; [done|]. split; [done|]. intros ->. by destruct (Hr ()). }
  apply quietly_read_inv in H as [(source & Hs & H)|(_ & [= _ ->] & -> & Hr)].
  2: { left. split; [done|]. split; [done|]. intros ->. by destruct (Hr ()). }
  apply quietly_read_inv in H as [(v & Hv & H)|(_ & [= _ ->] & -> & Hr)].
  2: { left. split; [done|]. split; [done|]. intros ->. by destruct (Hr ()). }
  apply get_version_iff in Hv. change STAGE with (L "stage") in *.
  right. exists t, source, v. split; [done|]. split; [done|]. split; [done|]. cbv zeta.
  set (cs := compare_diff os ot source t) in *.
  apply say_then_inv in H as [(-> & Hq & ->)|(k1 & o2 & H & ->)].
  { left. simpl in Hq. split; [apply prefix_nil|done]. }
  assert (v_name v = L "stage") as Hn by (by apply Hw).
  unfold change_lines. destruct (decide (cs = [])) as [Ecs|Ecs].
  - rewrite Ecs in *. apply say_then_inv in H as [(-> & Hq & ->)|(k2 & o3 & H & ->)].
    { left. simpl in Hq. split; [by apply prefix_cons, prefix_nil|done]. }
    apply stage_rest_tells in H as [(H1 & H2 & H3)|[-> H]]; [| |done].
    + left. split; [by do 2 apply prefix_cons|done].
    + right. split; [done|exact H].
  - replace (match cs with [] => _ | _ => _ end) with (staged_line green dimmed <$> cs) by (by destruct cs).
    apply quietly_inv in H as [(a & p & [= <- <-] & H)|((r1 & [= <- _] & Hr1) & _)]; [|by destruct (Hr1 ())].
    apply stage_rest_tells in H as [(H1 & H2 & H3)|[-> H]]; [| |done].
    + left. split; [by apply prefix_cons|done].
    + right. split; [done|exact H].
Qed.

(** ** status *)
Lemma say_all_tells {S} lines k (s : S) r q out :
  say_all lines (k, s) = ((r, q), out) -> q.2 = s /\ out `prefix_of` lines /\ (r = Ret () -> out = lines).
Proof.
  revert k out. induction lines as [|line lines IH]; intros k out H.
  - injection H as <- <- <-. split; [done|]. split; [done|done].
  - cbn [say_all] in H. apply say_then_inv in H as [(-> & <- & ->)|(k1 & o2 & H & ->)].
    + split; [done|]. split; [apply prefix_nil|done].
    + apply IH in H as (H1 & H2 & H3). split; [done|]. split; [by apply prefix_cons|]. intros Hr. by rewrite H3.
Qed.
Lemma no_changes_iff green red message rep :
  L "No changes." ∈ status_lines green red message rep <-> World.staged rep = [] /\ not_staged rep = [].
Proof.
  unfold status_lines. destruct (decide (World.staged rep = [] /\ not_staged rep = [])) as [[H1 H2]|Hne].
  - rewrite H1, H2. split; [done|]. intros _. apply elem_of_app. right. by left.
  - split; [|done]. rewrite app_nil_r. intros K. exfalso.
    apply elem_of_app in K as [K%elem_of_list_singleton|K]; [by destruct (on_version rep)|].
    apply elem_of_app in K as [K|K].
    + destruct (World.staged rep) as [|c cs]; [by apply elem_of_nil in K|].
      apply elem_of_cons in K as [K|(x & K & _)%elem_of_list_fmap]; done.
    + destruct (not_staged rep) as [|c cs]; [by apply elem_of_nil in K|].
      apply elem_of_cons in K as [K|(x & K & _)%elem_of_list_fmap]; done.
Qed.
Section status.
  Context {S : Type} (o : outside S) (green red : str -> str) (message : herror -> str).
  Let st := setting_of o.
  Lemma status_tells cwd name p dp k w r k' w' t out :
    profile_at st (files w) cwd name p -> profile_at st (files w) cwd (L "database") dp ->
    is_directory (files w) (p_history dp) = true ->
    reachable (history_at o (p_history dp) (files w)) ->
    load_definitions o (below (p_definitions dp) (files w)) = Ret t ->
    status_told green red message o cwd name (k, w) = ((r, (k', w')), out) ->
    w' = w /\ r <> Abort /\ r <> Hang /\ (forall e, r <> Raise e) /\
    (r = Ret () -> exists line stage source,
      stored (history_at o (p_history dp) (files w)) (L "stage") stage /\
      calculate_snapshot (history_at o (p_history dp) (files w)) (L "stage") = Ret source /\
      out = [L "On database version: " ++ line] ++
        part (L "Changes staged:") green (v_changes stage) ++
        part (L "Changes not staged:") red (compare_diff (order_source o) (order_target o) source t) ++
        (if decide (v_changes stage = [] /\ compare_diff (order_source o) (order_target o) source t = []) then [L "No changes."] else []) /\
      (L "No changes." ∈ out <-> v_changes stage = [] /\ db_same source t) /\
      (forall db tbl row,
         schema_ident o (p_metadata_schema p) = Some (p_metadata_schema p) ->
         servers w !! p_database_url p = Some db -> has_table db (p_metadata_schema p) tbl ->
         NoDup (r_order <$> t_rows tbl) -> newest (t_rows tbl) row ->
         line = green (v_name (r_version row)))).
  Proof.
    intros Hp Hdp Hdir Hreach Hload H. unfold status_told, tbind in H. unfold quietly in H.
    destruct (cmd_status o cwd name (k, w)) as [r1 [k1 w1]] eqn:E.
    destruct (status_exact o cwd name p dp k w r1 k1 w1 t Hp Hdp Hdir Hreach Hload E) as [-> Hs].
    assert (r1 = Killed \/ r1 <> Killed) as [->|Hr1] by (destruct r1; auto).
    { injection H as <- _ <- <-. split; [done|]. split; [done|]. split; [done|]. done. }
    destruct (Hs Hr1) as (rep & stage & source & -> & H1 & H2 & H3 & H4 & H5 & H6).
    destruct (say_all (status_lines green red message rep) (k1, w)) as [[r2 [k2 w2]] o2] eqn:E2.
    injection H as -> -> -> <-.
    assert (forall lines k (s : world S), exists r q o, say_all lines (k, s) = ((r, q), o) /\ (r = Ret () \/ r = Killed)) as Hsay.
    { clear. induction lines as [|line lines IH]; intros k s; [by eexists _, _, _; split; [done|left]|].
      cbn [say_all]. destruct k as [|k]; [by eexists _, _, _; split; [done|right]|].
      destruct (IH k s) as (r & q & o & E & Hr). exists r, q, (line :: o). split; [|done].
      unfold tbind. simpl. by rewrite E. }
    destruct (Hsay (status_lines green red message rep) k1 w) as (r3 & q3 & o3 & E3 & Hr3). rewrite E2 in E3.
    injection E3 as <- <- <-.
    apply say_all_tells in E2 as (Hw & _ & Hall). simpl in Hw. subst w'.
    split; [done|]. split; [by destruct Hr3 as [->| ->]|]. split; [by destruct Hr3 as [->| ->]|].
    split; [by destruct Hr3 as [->| ->]|]. intros Hret. rewrite (Hall Hret). clear Hall Hr3 Hret.
    exists (match on_version rep with Ret v => green v | Raise e => red (message e) | _ => [] end), stage, source.
    split; [done|]. split; [done|]. split; [|split; [by rewrite no_changes_iff, H5, H3|]].
    - unfold status_lines, part. rewrite H3, H4. destruct (v_changes stage); destruct (compare_diff _ _ _ _); done.
    - intros db tbl row G1 G2 G3 G4 G5. by rewrite (H6 db tbl row G1 G2 G3 G4 G5).
  Qed.
End status.
