(** Property theorems C01-C12: snapshots, changes, diff.  Proofs are in the lemma files. *)
From Verif Require Import Base Types Changes SpecSnapshot SpecChange SpecDiff Diff
  InvertLemmas ApplyLemmas DiffSame DiffLocal DiffRun DiffOrder DiffRollback SnapshotExamples.

(** ** C01: applying the diff reaches the target

    Full statement: for all well-formed [s], [t] and all iteration orders,
    [exists d', apply_all (compare_diff os ot s t) s = (d', Ok ()) /\ db_equiv d' t].
    It is false; the three refutations show the three ways it fails, and the [_iff]
    theorem shows that there is no other way. *)
Theorem C01_diff_reaches_target_order_refuted :
  exists s t os ot, wf_db s /\ wf_db t /\ no_dangling_index s /\ no_dangling_index t /\
    exists d' e, apply_all (compare_diff os ot s t) s = (d', Err e).
Proof. exact refute_order. Qed.
Print Assumptions C01_diff_reaches_target_order_refuted.

Theorem C01_diff_reaches_target_index_refuted :
  exists s t os ot d', wf_db s /\ wf_db t /\
    apply_all (compare_diff os ot s t) s = (d', Ok ()) /\ ~ db_equiv d' t.
Proof. exact refute_index_attributes. Qed.
Print Assumptions C01_diff_reaches_target_index_refuted.

Theorem C01_diff_reaches_target_sequence_refuted :
  exists s t os ot d', wf_db s /\ wf_db t /\
    apply_all (compare_diff os ot s t) s = (d', Ok ()) /\ ~ db_equiv d' t.
Proof. exact refute_sequence_owner. Qed.
Print Assumptions C01_diff_reaches_target_sequence_refuted.

Theorem C01_diff_reaches_target_partial s t os ot :
  wf_db s -> wf_db t ->
  indexes_safe s t -> index_attributes_agree s t -> new_sequences_unowned s t ->
  exists d', apply_all (compare_diff os ot s t) s = (d', Ok ()) /\ db_equiv d' t.
Proof. exact (fun Hs Ht H1 H2 H3 => proj2 (diff_reaches s t Hs Ht) (conj H1 (conj H2 H3)) os ot). Qed.
Print Assumptions C01_diff_reaches_target_partial.

Theorem C01_diff_reaches_target_iff s t :
  wf_db s -> wf_db t ->
  (forall os ot, exists d', apply_all (compare_diff os ot s t) s = (d', Ok ()) /\ db_equiv d' t) <->
  indexes_safe s t /\ index_attributes_agree s t /\ new_sequences_unowned s t.
Proof. exact (diff_reaches s t). Qed.
Print Assumptions C01_diff_reaches_target_iff.

Theorem C01_diff_applies_iff s t :
  wf_db s -> wf_db t ->
  (forall os ot, exists d', apply_all (compare_diff os ot s t) s = (d', Ok ())) <-> indexes_safe s t.
Proof. exact (diff_applies_iff s t). Qed.
Print Assumptions C01_diff_applies_iff.

(** Whatever the orders, if the changes apply the result is one and the same snapshot. *)
Theorem C01_diff_exact_result s t os ot d' :
  wf_db s -> wf_db t -> apply_all (compare_diff os ot s t) s = (d', Ok ()) -> d' = expected_db s t.
Proof. exact (fun Hs Ht H => proj1 (diff_result os ot s t d' Hs Ht H)). Qed.
Print Assumptions C01_diff_exact_result.

Example C01_example :
  wf_db ex_source /\ wf_db ex_target /\ indexes_safe ex_source ex_target /\
  index_attributes_agree ex_source ex_target /\ new_sequences_unowned ex_source ex_target /\
  length (compare_diff any_order any_order ex_source ex_target) = 20.
Proof.
  exact (conj ex_source_wf (conj ex_target_wf (conj ex_indexes_safe (conj ex_index_attributes
    (conj ex_new_sequences ex_diff_size))))).
Qed.

(** ** C02: a snapshot does not differ from itself *)
Theorem C02_self_diff_empty os ot s : wf_db s -> compare_diff os ot s s = [].
Proof. exact (diff_self os ot s). Qed.
Print Assumptions C02_self_diff_empty.

Example C02_example : wf_db ex_source /\ db_schemas ex_source <> ∅.
Proof. split; [exact ex_source_wf|]. intros H. apply (f_equal (lookup P)) in H. discriminate H. Qed.

(** ** C03: an empty diff means nothing is left to migrate

    Full statement: [compare_diff os ot s t = [] -> db_equiv s t].  Refuted by two
    indexes that differ only in uniqueness and method; [_iff] gives exactly what an empty
    diff does guarantee. *)
Theorem C03_empty_diff_refuted :
  exists s t os ot, wf_db s /\ wf_db t /\ compare_diff os ot s t = [] /\ ~ db_equiv s t.
Proof. exact refute_empty_diff. Qed.
Print Assumptions C03_empty_diff_refuted.

Theorem C03_empty_diff_partial os ot s t :
  wf_db s -> wf_db t -> compare_diff os ot s t = [] -> index_attributes_agree s t -> db_equiv s t.
Proof. exact (diff_empty_equiv os ot s t). Qed.
Print Assumptions C03_empty_diff_partial.

Theorem C03_empty_diff_iff os ot s t :
  wf_db s -> wf_db t -> compare_diff os ot s t = [] <-> db_same s t.
Proof. exact (diff_empty_iff os ot s t). Qed.
Print Assumptions C03_empty_diff_iff.

(** Two snapshots with the same objects whose tables list their columns differently. *)
Example C03_example :
  wf_db w_two /\ wf_db w_two_swapped /\ w_two <> w_two_swapped /\
  compare_diff any_order any_order w_two w_two_swapped = [] /\
  index_attributes_agree w_two w_two_swapped.
Proof. exact ex_column_order. Qed.

(** ** C04: a second diff after applying the first is empty

    Full statement: without [new_sequences_unowned].  Refuted by a sequence with an
    owner; [_iff] shows that is the only obstacle. *)
Theorem C04_rediff_empty_refuted :
  exists s t os ot d', wf_db s /\ wf_db t /\
    apply_all (compare_diff os ot s t) s = (d', Ok ()) /\ compare_diff os ot d' t <> [].
Proof. exact refute_converges. Qed.
Print Assumptions C04_rediff_empty_refuted.

Theorem C04_rediff_empty_partial os ot os' ot' s t d' :
  wf_db s -> wf_db t -> new_sequences_unowned s t ->
  apply_all (compare_diff os ot s t) s = (d', Ok ()) -> compare_diff os' ot' d' t = [].
Proof. exact (fun Hs Ht Hq H => proj2 (rediff os ot os' ot' s t d' Hs Ht H) Hq). Qed.
Print Assumptions C04_rediff_empty_partial.

Theorem C04_rediff_empty_iff os ot os' ot' s t d' :
  wf_db s -> wf_db t -> apply_all (compare_diff os ot s t) s = (d', Ok ()) ->
  compare_diff os' ot' d' t = [] <-> new_sequences_unowned s t.
Proof. exact (rediff os ot os' ot' s t d'). Qed.
Print Assumptions C04_rediff_empty_iff.

Example C04_example :
  new_sequences_unowned ex_source ex_target /\
  exists d', apply_all (compare_diff any_order any_order ex_source ex_target) ex_source = (d', Ok ()).
Proof. split; [exact ex_new_sequences|]. apply runs. vm_compute. reflexivity. Qed.

(** ** C05: unchanged objects are never touched *)
Theorem C05_diff_local os ot s t c :
  wf_db s -> wf_db t -> c ∈ compare_diff os ot s t -> differs s t (target_of c).
Proof. exact (diff_local os ot s t c). Qed.
Print Assumptions C05_diff_local.

(** Sharper: what source and target look like at the object, per change kind. *)
Theorem C05_diff_justified os ot s t :
  wf_db s -> wf_db t -> Forall (justified s t) (compare_diff os ot s t).
Proof. exact (diff_justified s t os ot). Qed.
Print Assumptions C05_diff_justified.

Example C05_example :
  AlterColumnSetDataType P (L "users") (L "id") (L "int8")
    ∈ compare_diff any_order any_order ex_source ex_target.
Proof. apply (bool_decide_unpack _). vm_compute. exact I. Qed.

(** ** C06: every staged change can be reverted when it is staged *)
Theorem C06_staged_changes_revert os ot s t d' :
  wf_db s -> wf_db t -> apply_all (compare_diff os ot s t) s = (d', Ok ()) ->
  exists rs, collect_reverts (compare_diff os ot s t) s = Some rs.
Proof. exact (diff_reverts os ot s t d'). Qed.
Print Assumptions C06_staged_changes_revert.

Example C06_example :
  exists d', apply_all (compare_diff any_order any_order ex_source ex_target) ex_source = (d', Ok ()).
Proof. apply runs. vm_compute. reflexivity. Qed.

(** ** C07: a single change followed by its revert restores the snapshot

    Full statement: without [recoverable].  Refuted by dropping a table that has a
    primary key; [_iff] shows exactly which changes lose something. *)
Theorem C07_revert_restores_refuted :
  exists c d d1 r, wf_db d /\ apply c d = (d1, Ok ()) /\ revert c d = Ok r /\
    ~ exists d2, apply r d1 = (d2, Ok ()) /\ db_equiv d2 d.
Proof. exact refute_revert. Qed.
Print Assumptions C07_revert_restores_refuted.

Theorem C07_revert_restores_partial c d d1 r :
  wf_db d -> recoverable c d -> apply c d = (d1, Ok ()) -> revert c d = Ok r ->
  exists d2, apply r d1 = (d2, Ok ()) /\ db_equiv d2 d.
Proof. exact (fun Hd Hc Ha Hr => proj2 (revert_restores_iff c d d1 r Hd Ha Hr) Hc). Qed.
Print Assumptions C07_revert_restores_partial.

Theorem C07_revert_restores_iff c d d1 r :
  wf_db d -> apply c d = (d1, Ok ()) -> revert c d = Ok r ->
  (exists d2, apply r d1 = (d2, Ok ()) /\ db_equiv d2 d) <-> recoverable c d.
Proof. exact (revert_restores_iff c d d1 r). Qed.
Print Assumptions C07_revert_restores_iff.

Example C07_example :
  recoverable (DropColumn P (L "users") (L "name")) ex_source /\
  (exists d1, apply (DropColumn P (L "users") (L "name")) ex_source = (d1, Ok ())) /\
  exists r, revert (DropColumn P (L "users") (L "name")) ex_source = Ok r.
Proof. split_and!; [exact I|apply runs; vm_compute; reflexivity|eexists; vm_compute; reflexivity]. Qed.

(** ** C08: a whole staged changeset can be rolled back

    Full statement: without [rollback_safe].  Refuted by dropping a table and its index
    (the table first); the [_iff] theorem shows that [rollback_safe] is exactly what it
    takes. *)
Theorem C08_rollback_refuted :
  exists s t os ot d' rs, wf_db s /\ wf_db t /\ no_dangling_index s /\ no_dangling_index t /\
    apply_all (compare_diff os ot s t) s = (d', Ok ()) /\
    collect_reverts (compare_diff os ot s t) s = Some rs /\
    exists d2 e, apply_all (reverse rs) d' = (d2, Err e).
Proof. exact refute_rollback. Qed.
Print Assumptions C08_rollback_refuted.

Theorem C08_rollback_partial os ot s t d' rs :
  wf_db s -> wf_db t -> rollback_safe s t ->
  apply_all (compare_diff os ot s t) s = (d', Ok ()) ->
  collect_reverts (compare_diff os ot s t) s = Some rs ->
  exists d2, apply_all (reverse rs) d' = (d2, Ok ()) /\ db_equiv d2 s.
Proof. exact (diff_rollback os ot s t d' rs). Qed.
Print Assumptions C08_rollback_partial.

(** The condition is necessary: a changeset that applies whatever the orders are can be
    rolled back whatever they are only if it is [rollback_safe]. *)
Theorem C08_rollback_iff s t :
  wf_db s -> wf_db t ->
  (forall os ot, exists d', apply_all (compare_diff os ot s t) s = (d', Ok ())) ->
  (forall os ot d' rs, apply_all (compare_diff os ot s t) s = (d', Ok ()) ->
     collect_reverts (compare_diff os ot s t) s = Some rs ->
     exists d2, apply_all (reverse rs) d' = (d2, Ok ()) /\ db_equiv d2 s) <->
  rollback_safe s t.
Proof. exact (diff_rollback_iff s t). Qed.
Print Assumptions C08_rollback_iff.

Example C08_example :
  wf_db ex_source /\ wf_db ex_target /\ rollback_safe ex_source ex_target /\
  (forall os ot, exists d',
     apply_all (compare_diff os ot ex_source ex_target) ex_source = (d', Ok ())) /\
  exists d', apply_all (compare_diff any_order any_order ex_source ex_target) ex_source = (d', Ok ()).
Proof.
  split_and!; [exact ex_source_wf|exact ex_target_wf|exact ex_rollback_safe| |].
  - apply diff_applies_iff; [exact ex_source_wf|exact ex_target_wf|exact ex_indexes_safe].
  - apply runs. vm_compute. reflexivity.
Qed.

(** ** C09: a failed change leaves the snapshot untouched

    Full statement: [apply c d = (d', Err e) -> d' = d].  Refuted by renaming a column to
    a name that is taken; [_exact] shows that this is the only such case and what is left
    then (the column is gone). *)
Theorem C09_failed_change_refuted :
  exists c d d' e, wf_db d /\ apply c d = (d', Err e) /\ d' <> d.
Proof. exact refute_failed_apply. Qed.
Print Assumptions C09_failed_change_refuted.

Theorem C09_failed_change_partial c d d' e :
  (forall n k a b, c <> RenameColumn n k a b) -> apply c d = (d', Err e) -> d' = d.
Proof. exact (apply_fails_atomic c d d' e). Qed.
Print Assumptions C09_failed_change_partial.

Theorem C09_failed_change_exact c d d' e :
  wf_db d -> apply c d = (d', Err e) ->
  d' = d \/
  exists n k from to, c = RenameColumn n k from to /\ from <> to /\
    is_Some (column_at d n k from) /\ is_Some (column_at d n k to) /\
    apply (DropColumn n k from) d = (d', Ok ()).
Proof. exact (apply_fails c d d' e). Qed.
Print Assumptions C09_failed_change_exact.

Example C09_example : exists d' e,
  apply (CreateTable P (L "fresh") [CreateTableColumn (L "a") (L "text") false None;
                                    CreateTableColumn (L "a") (L "int4") false None]) ex_source
  = (d', Err e) /\
  e = ObjectAlreadyExists [P; L "fresh"; L "a"] (L "column").
Proof. exact ex_failed_change. Qed.

(** ** C10: a change alters only the object it names *)
Theorem C10_apply_frame c d d' r : apply c d = (d', r) -> same_but (target_of c) d d'.
Proof. exact (apply_frame c d d' r). Qed.
Print Assumptions C10_apply_frame.

Example C10_example : exists d',
  apply (AlterPrimaryKey P (L "users") (L "users_pkey") true true) ex_source = (d', Ok ()) /\
  d' <> ex_source.
Proof. exact ex_apply_frame. Qed.

(** ** C11: snapshots stay consistent under any sequence of changes *)
Theorem C11_changes_keep_wf cs : wf_db (try_all cs database_new).
Proof. exact (try_all_new_wf cs). Qed.
Print Assumptions C11_changes_keep_wf.

Theorem C11_change_keeps_wf c d d' r : wf_db d -> apply c d = (d', r) -> wf_db d'.
Proof. exact (apply_wf c d d' r). Qed.
Print Assumptions C11_change_keeps_wf.

Example C11_example :
  is_Some (relation_at (try_all (CreateSchema P :: CreateSchema P :: w_dangling_changes) database_new)
    P (L "users_name")).
Proof. apply (bool_decide_unpack _). vm_compute. exact I. Qed.

(** ** C12: no dangling index

    Full statement: every reachable snapshot has no dangling index.  Refuted by dropping
    a table that has an index; [_exact] shows that a change creates a dangling index
    exactly in that case. *)
Theorem C12_no_dangling_index_refuted :
  exists cs d', apply_all cs database_new = (d', Ok ()) /\ ~ no_dangling_index d'.
Proof. exact refute_dangling. Qed.
Print Assumptions C12_no_dangling_index_refuted.

Theorem C12_no_dangling_index_exact c d d' :
  wf_db d -> no_dangling_index d -> apply c d = (d', Ok ()) ->
  (no_dangling_index d' <-> ~ exists n k, c = DropTable n k /\ table_at d n k /\ indexed d n k).
Proof. exact (apply_dangling c d d'). Qed.
Print Assumptions C12_no_dangling_index_exact.

Theorem C12_no_dangling_index_partial cs d' :
  apply_all cs database_new = (d', Ok ()) -> (forall n k, DropTable n k ∉ cs) -> no_dangling_index d'.
Proof. exact (no_drop_no_dangling cs d'). Qed.
Print Assumptions C12_no_dangling_index_partial.

Example C12_example : no_dangling_index ex_source /\ exists d',
  apply (DropIndex P (L "users_name")) ex_source = (d', Ok ()).
Proof. split; [exact ex_source_no_dangling|]. apply runs. vm_compute. reflexivity. Qed.
