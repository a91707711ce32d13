(** C26-C35: the history directory and the commands on it. *)
From Verif Require Import Base Text Types Changes SpecSnapshot SpecChange SpecDiff Diff DecideSpec DiffOrder
  SnapshotExamples Load Yaml Ddl Sql History SpecHistory HistoryLemmas HistoryLoad HistoryProofs HistoryRun
  HistoryClaims HistoryMake HistoryExamples.

(** ** C26: the upward range is exactly the path between two versions

    Full statement: [Ret l] exactly on paths, and an error when there is no path.  The
    second half is false: on a history with a circle the loop never ends.  It holds of
    every history the commands produce. *)
Theorem C26_no_path_fails_refuted :
  exists d from to, well_named d /\ (forall l, ~ path d from l to) /\ get_upward_range d from to = Hang.
Proof. exact refute_range_fails. Qed.
Print Assumptions C26_no_path_fails_refuted.

Theorem C26_range_is_path d from to l :
  well_named d -> get_upward_range d from to = Ret l <-> path d from l to /\ from ∉ l.
Proof. exact (range_named_iff d from to l). Qed.
Print Assumptions C26_range_is_path.

Theorem C26_no_path_fails_partial d from to :
  (forall l, ~ path d from l to) -> ~ circles d from to -> exists e, get_upward_range d from to = Raise e.
Proof. exact (range_fails d from to). Qed.
Print Assumptions C26_no_path_fails_partial.

Theorem C26_range_reachable d from to :
  reachable d ->
  (exists l, get_upward_range d from to = Ret l /\ path d from l to) \/
  (exists e, get_upward_range d from to = Raise e /\ forall l, ~ path d from l to).
Proof. exact (range_reachable d from to). Qed.
Print Assumptions C26_range_reachable.

Example C26_example :
  reachable ex_d5 /\
  get_upward_range ex_d5 (L "init") (L "stage") =
    Ret [L "20240101_120000-auto"; L "20240102_093000-users"; L "stage"].
Proof. split; [exact ex_d5_reachable|exact ex_range]. Qed.

(** ** C27: loading does not depend on listing order and rejects branches

    Two refutations: which of the two children of a branch the error names first depends
    on the listing, and a branch goes unnoticed if a version name ends in [.yaml]. *)
Theorem C27_error_order_refuted : exists d l l', from_dir l d <> from_dir l' d.
Proof. exact refute_listing_order. Qed.
Print Assumptions C27_error_order_refuted.

Theorem C27_rejects_branches_refuted : exists d, branches d /\ forall l, exists h, from_dir l d = Ret h.
Proof. exact refute_branches. Qed.
Print Assumptions C27_rejects_branches_refuted.

Theorem C27_loading_order_partial l l' d :
  (forall h, from_dir l d = Ret h -> from_dir l' d = Ret h) /\
  (from_dir l d = Hang -> from_dir l' d = Hang).
Proof. exact (from_dir_order l l' d). Qed.
Print Assumptions C27_loading_order_partial.

Theorem C27_rejects_branches_partial l d n n' v v' p :
  plain_name n -> plain_name n' -> n <> n' -> stored d n v -> stored d n' v' ->
  v_previous v = Some p -> v_previous v' = Some p -> exists e, from_dir l d = Raise e.
Proof. exact (branched_fails l d n n' v v' p). Qed.
Print Assumptions C27_rejects_branches_partial.

(** Exactly which directories load, and what is loaded. *)
Theorem C27_loading_exact l d h :
  plain_dir d ->
  from_dir l d = Ret h <->
  (forall f, version_entry d f -> exists v, d !! f = Some (Document v)) /\ ~ branches d /\
  (forall a b, next_map h !! a = Some b <-> follows d a b) /\ is_current d (current_version h).
Proof. exact (from_dir_iff l d h). Qed.
Print Assumptions C27_loading_exact.

Example C27_example :
  plain_dir ex_d5 /\ (exists h, from_dir reversed_listing ex_d5 = Ret h) /\
  stored branched_dir (L "a") (Version (L "a") (Some (L "init")) [] [] []) /\
  stored branched_dir (L "stage") (new_stage (L "init")).
Proof.
  split; [exact (reachable_plain _ ex_d5_reachable)|].
  split; [exact (proj1 (reachable_terminates reversed_listing _ ex_d5_reachable))|].
  split; by_computation.
Qed.

(** ** C28: the current version is the last made version *)
Theorem C28_current_is_last_made ns d l :
  made_in ns d ->
  exists h st, from_dir l d = Ret h /\ current_version h = default (L "init") (last ns) /\
    stored d (L "stage") st /\ v_previous st = Some (current_version h).
Proof. exact (made_in_current ns d l). Qed.
Print Assumptions C28_current_is_last_made.

Theorem C28_every_reachable_history d : reachable d <-> exists ns, made_in ns d.
Proof. exact (reachable_made_in d). Qed.
Print Assumptions C28_every_reachable_history.

Example C28_example : made_in [L "20240101_120000-auto"; L "20240102_093000-users"] ex_d5.
Proof. exact ex_d5_made_in. Qed.

(** ** C29: histories produced by the CLI are linear and replayable *)
Theorem C29_histories_linear d : reachable d -> exists made st, linear d made st.
Proof. exact (reachable_linear d). Qed.
Print Assumptions C29_histories_linear.

Theorem C29_histories_load_and_replay d l :
  reachable d ->
  exists h made st db0 db, linear d made st /\ from_dir l d = Ret h /\
    apply_all (v_changes new_init) database_new = (db0, Ok ()) /\
    replays db0 (made ++ [st]) db /\ calculate_snapshot d (L "stage") = Ret db.
Proof. exact (reachable_replays d l). Qed.
Print Assumptions C29_histories_load_and_replay.

Theorem C29_one_statement_per_change d n v :
  reachable d -> stored d n v -> n <> L "init" ->
  length (v_up v) = length (v_changes v) /\ length (v_down v) = length (v_changes v) /\
  forall i c, v_changes v !! i = Some c -> v_up v !! i = Some (render_sql c).
Proof. exact (reachable_statements d n v). Qed.
Print Assumptions C29_one_statement_per_change.

Example C29_example : reachable ex_d5 /\ length (v_changes (stage_of ex_d5)) = 19.
Proof. split; [exact ex_d5_reachable|vm_compute; reflexivity]. Qed.

(** ** C30: making a version preserves the computed schema, released versions never change *)
Theorem C30_make_moves_stage l now name k d k' d' st :
  reachable d -> d !! (made_name now name ++ L ".yaml") = None -> plain_name (made_name now name) ->
  make l now name (k, d) = (Ret (), (k', d')) -> stored d (L "stage") st ->
  (v_changes st <> [] \/ v_up st <> [] \/ v_down st <> []) ->
  stored d' (made_name now name)
    (Version (made_name now name) (v_previous st) (v_changes st) (v_up st) (v_down st)) /\
  stored d' (L "stage") (Version (L "stage") (Some (made_name now name)) [] [] []) /\
  (forall f, f <> made_name now name ++ L ".yaml" -> f <> L "stage.yaml" -> d' !! f = d !! f) /\
  calculate_snapshot d' (L "stage") = calculate_snapshot d (L "stage").
Proof. exact (make_moves l now name k d k' d' st). Qed.
Print Assumptions C30_make_moves_stage.

Theorem C30_make_nothing_staged l now name k d r k' d' st :
  reachable d -> stored d (L "stage") st -> v_changes st = [] -> v_up st = [] -> v_down st = [] ->
  make l now name (k, d) = (r, (k', d')) -> r = Ret () /\ d' = d.
Proof. exact (make_empty l now name k d r k' d' st). Qed.
Print Assumptions C30_make_nothing_staged.

Theorem C30_made_versions_stay d d' n v :
  reachable d -> rtc command d d' -> stored d n v -> n <> L "stage" -> stored d' n v.
Proof. exact (made_versions_stay d d' n v). Qed.
Print Assumptions C30_made_versions_stay.

Example C30_example :
  reachable ex_d3 /\ rtc command ex_d3 ex_d5 /\
  ex_d3 !! (made_name t2 (Some (L "users")) ++ L ".yaml") = None /\ plain_name (made_name t2 (Some (L "users"))) /\
  (exists k', make sorted_listing t2 (Some (L "users")) (4, ex_d3) = (Ret (), (k', ex_d4))) /\
  v_changes (stage_of ex_d3) <> [].
Proof.
  split; [exact ex_d3_reachable|].
  split; [eapply rtc_l; [exact ex_d4_command|]; eapply rtc_l; [exact ex_d5_command|apply rtc_refl]|].
  split; [vm_compute; reflexivity|]. split; [exact ex_name2_plain|]. split; [|by_computation].
  exists 0. apply (run_pair (making t2 (Some (L "users")) ex_d3)); vm_compute; reflexivity.
Qed.

(** ** C31: two versions never collide

    Refuted three times: the same name in the same second overwrites the earlier version
    and the history does not load any more; a name ending in [.yaml] makes the history
    unloadable; a name with a slash is an error. *)
Theorem C31_same_second_refuted :
  exists d l now k k' d' n v,
    reachable d /\ timestamp now /\ stored d n v /\ n <> L "stage" /\
    make l now None (k, d) = (Ret (), (k', d')) /\ ~ stored d' n v /\ exists e, from_dir l d' = Raise e.
Proof. exact refute_same_second. Qed.
Print Assumptions C31_same_second_refuted.

Theorem C31_suffix_refuted :
  exists d l now name k k' d' e,
    reachable d /\ timestamp now /\ d !! (made_name now name ++ L ".yaml") = None /\
    make l now name (k, d) = (Ret (), (k', d')) /\ from_dir l d' = Raise e.
Proof. exact refute_suffix. Qed.
Print Assumptions C31_suffix_refuted.

Theorem C31_slash_refuted :
  exists d l now name k k', reachable d /\ timestamp now /\
    make l now name (k, d) = (Raise FileError, (k', d)).
Proof. exact refute_slash. Qed.
Print Assumptions C31_slash_refuted.

(** With a clock reading no earlier version has and a name that is neither a path nor ends
    in [.yaml], the version is new and everything is kept. *)
Theorem C31_make_succeeds_partial l l' now name k d :
  reachable d -> timestamp now ->
  (forall n v, stored d n v -> n <> L "init" -> n <> L "stage" ->
     exists t nm, timestamp t /\ t <> now /\ n = made_name t nm) ->
  (forall n, name = Some n -> 47%N ∉ n /\ ~ exists m, n = m ++ L ".yaml") ->
  exists k' d', make l now name (4 + k, d) = (Ret (), (k', d')) /\ reachable d' /\
    (exists h, from_dir l' d' = Ret h) /\
    (forall n v, stored d n v -> n <> L "stage" -> stored d' n v).
Proof. exact (make_succeeds l l' now name k d). Qed.
Print Assumptions C31_make_succeeds_partial.

(** Exactly: the name must be plain and not taken. *)
Theorem C31_make_succeeds_iff l l' now name k d st :
  reachable d -> timestamp now ->
  stored d (L "stage") st -> ~ (v_changes st = [] /\ v_up st = [] /\ v_down st = []) ->
  (exists k' d', make l now name (4 + k, d) = (Ret (), (k', d')) /\
     (exists h, from_dir l' d' = Ret h) /\
     (forall n v, stored d n v -> n <> L "stage" -> stored d' n v)) <->
  plain_name (made_name now name) /\ forall v, ~ stored d (made_name now name) v.
Proof. exact (make_succeeds_iff l l' now name k d st). Qed.
Print Assumptions C31_make_succeeds_iff.

Example C31_example :
  reachable ex_d3 /\ timestamp t2 /\
  forall n v, stored ex_d3 n v -> n <> L "init" -> n <> L "stage" ->
     exists t nm, timestamp t /\ t <> t2 /\ n = made_name t nm.
Proof. split; [exact ex_d3_reachable|]. split; [exact t2_timestamp|exact ex_d3_times]. Qed.
Example C31_example_staged :
  exists st, stored ex_d1 (L "stage") st /\ ~ (v_changes st = [] /\ v_up st = [] /\ v_down st = []).
Proof.
  exists (match ex_d1 !! (L "stage" ++ L ".yaml") with Some (Document v) => v | _ => new_init end). split; by_computation.
Qed.

(** ** C32: a crash during a command leaves a usable history

    Refuted: stage is interrupted after truncating the stage file; the history does not
    load and the changes staged before are gone. *)
Theorem C32_crash_refuted :
  exists d d', reachable d /\ interrupted d d' /\ (forall l, exists e, from_dir l d' = Raise e) /\
    exists st, stored d (L "stage") st /\ v_changes st <> [] /\
      forall n v, stored d' n v -> v_changes v <> v_changes st.
Proof. exact refute_crash. Qed.
Print Assumptions C32_crash_refuted.

(** The history loads after an interruption exactly if nothing was written yet. *)
Theorem C32_interrupted_loads_iff l d d' :
  reachable d -> interrupted d d' -> (exists h, from_dir l d' = Ret h) <-> d' = d.
Proof. exact (interrupted_loads_iff l d d'). Qed.
Print Assumptions C32_interrupted_loads_iff.

Theorem C32_made_versions_survive_partial d d' n v :
  reachable d -> interrupted d d' -> stored d n v -> n <> L "stage" -> stored d' n v.
Proof. exact (interrupted_made d d' n v). Qed.
Print Assumptions C32_made_versions_survive_partial.

Theorem C32_make_keeps_changes_partial l now name k d k' d' st :
  reachable d -> d !! (made_name now name ++ L ".yaml") = None -> plain_name (made_name now name) ->
  stored d (L "stage") st -> make l now name (k, d) = (Killed, (k', d')) ->
  exists n v, stored d' n v /\ v_previous v = v_previous st /\ v_changes v = v_changes st /\
    v_up v = v_up st /\ v_down v = v_down st.
Proof. exact (interrupted_make_keeps l now name k d k' d' st). Qed.
Print Assumptions C32_make_keeps_changes_partial.

Example C32_example :
  reachable ex_d3 /\ interrupted ex_d3 (crash_make 2).2.2 /\ (crash_make 2).2.2 <> ex_d3.
Proof. exact ex_interrupted. Qed.

(** ** C33: history traversal terminates

    Refuted by directories with circular predecessors; they are the only ones. *)
Theorem C33_terminates_refuted :
  (exists l d, from_dir l d = Hang) /\ (exists d from to, get_upward_range d from to = Hang).
Proof. exact refute_terminates. Qed.
Print Assumptions C33_terminates_refuted.

Theorem C33_range_hangs_iff d from to : get_upward_range d from to = Hang <-> circles d from to.
Proof. exact (range_hang_circles d from to). Qed.
Print Assumptions C33_range_hangs_iff.

Theorem C33_loading_hangs_iff l d :
  plain_dir d ->
  from_dir l d = Hang <->
  (forall f, version_entry d f -> exists v, d !! f = Some (Document v)) /\ ~ branches d /\
  exists c, rtc (follows d) (L "init") c /\ tc (follows d) c c.
Proof. exact (from_dir_hang_iff l d). Qed.
Print Assumptions C33_loading_hangs_iff.

Theorem C33_terminates_partial l d :
  reachable d ->
  (exists h, from_dir l d = Ret h) /\ (forall from to, get_upward_range d from to <> Hang) /\
  (forall n, calculate_snapshot d n <> Hang).
Proof. exact (reachable_terminates l d). Qed.
Print Assumptions C33_terminates_partial.

Example C33_example : reachable ex_d5 /\ plain_dir init_loop_dir.
Proof. split; [exact ex_d5_reachable|exact init_loop_plain]. Qed.

(** ** C34: reset discards exactly the staged changes *)
Theorem C34_reset_exact l k d r k' d' st :
  reachable d -> stored d (L "stage") st ->
  reset l (k, d) = (r, (k', d')) -> r <> Killed ->
  r = Ret () /\ stored d' (L "stage") (Version (L "stage") (v_previous st) [] [] []) /\
  (forall f, f <> L "stage.yaml" -> d' !! f = d !! f) /\
  exists h, from_dir l d' = Ret h /\ v_previous st = Some (current_version h) /\
    calculate_snapshot d' (L "stage") = calculate_snapshot d (current_version h).
Proof. exact (reset_exact l k d r k' d' st). Qed.
Print Assumptions C34_reset_exact.

Example C34_example :
  reachable ex_d5 /\ stored ex_d5 (L "stage") (stage_of ex_d5) /\ v_changes (stage_of ex_d5) <> [] /\
  (reset sorted_listing (2, ex_d5)).1 = Ret ().
Proof. split; [exact ex_d5_reachable|]. split; [by_computation|]. split; [by_computation|vm_compute; reflexivity]. Qed.

(** ** C35: staging records the difference to the definitions

    Refuted: a new sequence with an owner is staged without its owner, so that the next
    status reports changes again; and stage fails for some hash orders. *)
Theorem C35_stage_converges_refuted :
  exists d l os ot t k k' d' source,
    reachable d /\ wf_db t /\ stage l os ot (Ret t) (k, d) = (Ret (), (k', d')) /\
    calculate_snapshot d' (L "stage") = Ret source /\ compare_diff os ot source t <> [].
Proof. exact refute_stage_converges. Qed.
Print Assumptions C35_stage_converges_refuted.

Theorem C35_stage_succeeds_refuted :
  exists d l os ot t k e, reachable d /\ wf_db t /\ no_dangling_index t /\
    (stage l os ot (Ret t) (k, d)).1 = Raise e.
Proof. exact refute_stage_succeeds. Qed.
Print Assumptions C35_stage_succeeds_refuted.

Theorem C35_stage_exact_partial l os ot t k d k' d' st :
  reachable d -> stored d (L "stage") st -> wf_db t ->
  stage l os ot (Ret t) (k, d) = (Ret (), (k', d')) ->
  exists source st', calculate_snapshot d (L "stage") = Ret source /\ wf_db source /\
    stored d' (L "stage") st' /\ v_previous st' = v_previous st /\
    v_changes st' = v_changes st ++ compare_diff os ot source t /\
    (forall f, f <> L "stage.yaml" -> d' !! f = d !! f) /\
    calculate_snapshot d' (L "stage") = Ret (expected_db source t) /\
    (forall os' ot', compare_diff os' ot' (expected_db source t) t = [] <-> new_sequences_unowned source t) /\
    (db_equiv (expected_db source t) t <-> index_attributes_agree source t /\ new_sequences_unowned source t).
Proof. exact (stage_exact l os ot t k d k' d' st). Qed.
Print Assumptions C35_stage_exact_partial.

(** Stage succeeds exactly if the changes apply (see C01 for when they do). *)
Theorem C35_stage_succeeds_iff l os ot t k d source :
  reachable d -> wf_db t -> calculate_snapshot d (L "stage") = Ret source ->
  (exists k' d', stage l os ot (Ret t) (S (S k), d) = (Ret (), (k', d'))) <->
  exists db, apply_all (compare_diff os ot source t) source = (db, Ok ()).
Proof. exact (stage_succeeds l os ot t k d source). Qed.
Print Assumptions C35_stage_succeeds_iff.

(** If stage fails, the directory is unchanged. *)
Theorem C35_stage_fails l os ot definitions k d r k' d' :
  reachable d -> stage l os ot definitions (k, d) = (r, (k', d')) -> r <> Killed ->
  r = Ret () \/ d' = d.
Proof. exact (stage_fails l os ot definitions k d r k' d'). Qed.
Print Assumptions C35_stage_fails.

(** Whatever the definition files are, what is loaded from them is well formed. *)
Theorem C35_definitions_wf read os o dir t :
  load_snapshot (load_yaml_string read o) os dir = Some t -> wf_db t.
Proof. exact (load_definitions_wf read os o dir t). Qed.
Print Assumptions C35_definitions_wf.

Example C35_example :
  reachable ex_d2 /\ wf_db ex_target /\ exists k' d' source,
  stage sorted_listing any_order table_first (Ret ex_target) (4, ex_d2) = (Ret (), (k', d')) /\
  calculate_snapshot ex_d2 (L "stage") = Ret source /\ length (compare_diff any_order table_first source ex_target) = 20.
Proof. split; [exact ex_d2_reachable|]. split; [exact ex_target_wf|exact ex_stage]. Qed.
