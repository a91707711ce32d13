(** C95: an index on a column that is added to its table along with it.

    Within a schema everything new is created before anything that is there already is
    changed (diff.rs:62-75), so the index is created while the table does not have the column. *)
From Verif Require Import Base Text Types Changes SpecSnapshot Diff SpecDiff SnapshotExamples HistoryExamples Sql SpecSql SpecDb
  SpecLex SpecStatement SpecServer SpecSpelled SpecAccept SpecNull SpecAdd ServerExamples NullExamples AddExamples TakeBackExamples
  SpecIndexed IndexedLemmas IndexedFlow IndexedExamples.

(** In whatever order the hash maps are visited, the statement that creates a new index comes
    before every statement that adds a column to a table of its schema that is there already. *)
Theorem C95_index_before_column os ot s t n k i b x :
  wf_db s -> wf_db t -> relation_at s n k = None -> relation_at t n k = Some (RIndex i) ->
  table_at s n b -> table_at t n b -> column_at s n b x = None -> is_Some (column_at t n b x) ->
  exists pre post, compare_diff os ot s t = pre ++ CreateIndex n (ix_table i) k (ix_unique i) (ix_method i) (ix_keys i) :: post /\
    Forall (fun e => ~ brings_columns n b e) pre /\ Exists (adds_column n b x) post.
Proof. exact (index_before_column os ot s t n k i b x). Qed.
Print Assumptions C95_index_before_column.

(** At that point the snapshot has no such column, though the changes apply to it. *)
Theorem C95_index_without_column os ot s t d' n k i b x :
  wf_db s -> wf_db t -> relation_at s n k = None -> relation_at t n k = Some (RIndex i) ->
  table_at s n b -> table_at t n b -> column_at s n b x = None -> is_Some (column_at t n b x) ->
  apply_all (compare_diff os ot s t) s = (d', Ok ()) ->
  exists pre post d, compare_diff os ot s t = pre ++ CreateIndex n (ix_table i) k (ix_unique i) (ix_method i) (ix_keys i) :: post /\ Exists (adds_column n b x) post /\
    apply_all pre s = (d, Ok ()) /\ column_at d n b x = None.
Proof. exact (index_without_column os ot s t d' n k i b x). Qed.
Print Assumptions C95_index_without_column.

(** Nor has the server.  In full: whatever else differs.  Missing: definitions that do more than
    add.  ([obey] does not look into the expressions of an index.) *)
Theorem C95_server_without_column_partial os ot s t sv sv' n k i b x :
  wf_db s -> wf_db t -> spelled_db s -> spelled_db t -> described s sv ->
  only_adds s t -> new_sayable s t -> indexes_safe s t -> new_sequences_unowned s t ->
  relation_at s n k = None -> relation_at t n k = Some (RIndex i) ->
  table_at s n b -> table_at t n b -> column_at s n b x = None -> is_Some (column_at t n b x) ->
  runs obey (render_sql <$> compare_diff os ot s t) sv sv' ->
  exists pre post sv1, compare_diff os ot s t = pre ++ CreateIndex n (ix_table i) k (ix_unique i) (ix_method i) (ix_keys i) :: post /\
    runs obey (render_sql <$> pre) sv sv1 /\ server_column sv1 n b x = None.
Proof. exact (index_on_server os ot s t sv sv' n k i b x). Qed.
Print Assumptions C95_server_without_column_partial.

Example C95_example : (wf_db nl_keyed /\ wf_db tk_indexed /\ spelled_db nl_keyed /\ spelled_db tk_indexed /\ described nl_keyed ad_server) /\
  (only_adds nl_keyed tk_indexed /\ new_sayable nl_keyed tk_indexed /\ indexes_safe nl_keyed tk_indexed /\ new_sequences_unowned nl_keyed tk_indexed) /\
  relation_at nl_keyed P (L "users_email") = None /\
  relation_at tk_indexed P (L "users_email") = Some (RIndex (Index P (L "users_email") (L "users") false (L "btree") [L "email"])) /\
  table_at nl_keyed P (L "users") /\ table_at tk_indexed P (L "users") /\
  column_at nl_keyed P (L "users") (L "email") = None /\ is_Some (column_at tk_indexed P (L "users") (L "email")) /\
  runs obey (render_sql <$> compare_diff any_order table_first nl_keyed tk_indexed) ad_server tk_applied.
Proof. exact ex_indexed. Qed.

(** A server that looks for the columns of an index refuses, in whatever order the hash maps are
    visited.  Missing:
    definitions that do more than add, and keys that are expressions around the column. *)
Theorem C95_index_refused_partial {S : Type} (sem : str -> S -> option S) (view : S -> server) os ot s t u n k i x y e :
  obedient sem view -> indexes_checked sem view ->
  wf_db s -> wf_db t -> spelled_db s -> spelled_db t -> described s (view u) ->
  only_adds s t -> new_sayable s t -> indexes_safe s t -> new_sequences_unowned s t -> keys_fit t -> new_valid s t ->
  relation_at s n k = None -> relation_at t n k = Some (RIndex i) -> y ∈ ix_keys i -> lex y = Some [e] -> name_of e = Some x ->
  table_at s n (ix_table i) -> table_at t n (ix_table i) -> column_at s n (ix_table i) x = None -> is_Some (column_at t n (ix_table i) x) ->
  ~ exists u', runs sem (render_sql <$> compare_diff os ot s t) u u'.
Proof. exact (index_refused sem view os ot s t u n k i x y e). Qed.
Print Assumptions C95_index_refused_partial.

(** The case above, and a server that looks. *)
Example C95_refused_example : obedient checked_sem (fun sv => sv) /\ indexes_checked checked_sem (fun sv => sv) /\
  keys_fit tk_indexed /\ new_valid nl_keyed tk_indexed /\ lex (L "email") = Some [Word (L "email")] /\ name_of (Word (L "email")) = Some (L "email").
Proof. exact ex_index_refused. Qed.
