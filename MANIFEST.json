{
 "claims": [
  {
   "property": "C01",
   "status": "partial",
   "theorems": [
    "C01_diff_reaches_target_order_refuted",
    "C01_diff_reaches_target_index_refuted",
    "C01_diff_reaches_target_sequence_refuted",
    "C01_diff_reaches_target_partial",
    "C01_diff_reaches_target_iff",
    "C01_diff_applies_iff",
    "C01_diff_exact_result"
   ],
   "note": "The unrestricted statement is false of the code (three witnesses). The iff theorem is the exact characterisation: it holds for every hash order iff new indexes are on tables that exist already, same-key indexes agree on their other attributes, and (re)created sequences have no owner."
  },
  {
   "property": "C02",
   "status": "proved",
   "theorems": [
    "C02_self_diff_empty"
   ],
   "note": ""
  },
  {
   "property": "C03",
   "status": "partial",
   "theorems": [
    "C03_empty_diff_refuted",
    "C03_empty_diff_partial",
    "C03_empty_diff_iff"
   ],
   "note": "Refuted as stated: index table/uniqueness/method are not compared. The iff theorem says exactly what an empty diff guarantees."
  },
  {
   "property": "C04",
   "status": "partial",
   "theorems": [
    "C04_rediff_empty_refuted",
    "C04_rediff_empty_partial",
    "C04_rediff_empty_iff"
   ],
   "note": "Refuted as stated (owned sequences never converge); iff theorem shows this is the only obstacle."
  },
  {
   "property": "C05",
   "status": "proved",
   "theorems": [
    "C05_diff_local",
    "C05_diff_justified"
   ],
   "note": ""
  },
  {
   "property": "C06",
   "status": "proved",
   "theorems": [
    "C06_staged_changes_revert"
   ],
   "note": ""
  },
  {
   "property": "C07",
   "status": "partial",
   "theorems": [
    "C07_revert_restores_refuted",
    "C07_revert_restores_partial",
    "C07_revert_restores_iff"
   ],
   "note": "Refuted as stated (dropping a table with constraints, an owned sequence, a dangling index, a non-empty schema); iff theorem is the exact characterisation, up to column order."
  },
  {
   "property": "C08",
   "status": "partial",
   "theorems": [
    "C08_rollback_refuted",
    "C08_rollback_partial",
    "C08_rollback_iff"
   ],
   "note": "Refuted as stated; the iff theorem is the exact characterisation: a changeset that applies for every hash order can be rolled back for every hash order exactly if it is rollback_safe."
  },
  {
   "property": "C09",
   "status": "partial",
   "theorems": [
    "C09_failed_change_refuted",
    "C09_failed_change_partial",
    "C09_failed_change_exact"
   ],
   "note": "Refuted for rename onto a taken name only; exact theorem covers all changes."
  },
  {
   "property": "C10",
   "status": "proved",
   "theorems": [
    "C10_apply_frame"
   ],
   "note": ""
  },
  {
   "property": "C11",
   "status": "proved",
   "theorems": [
    "C11_changes_keep_wf",
    "C11_change_keeps_wf"
   ],
   "note": ""
  },
  {
   "property": "C12",
   "status": "partial",
   "theorems": [
    "C12_no_dangling_index_refuted",
    "C12_no_dangling_index_exact",
    "C12_no_dangling_index_partial"
   ],
   "note": "Refuted by drop table; the exact theorem shows a change creates a dangling index only in that case."
  },
  {
   "property": "C13",
   "status": "proved",
   "theorems": [
    "C13_load_order_independent",
    "C13_load_order_independent_text",
    "C13_directory"
   ],
   "note": ""
  },
  {
   "property": "C14",
   "status": "proved",
   "theorems": [
    "C14_merge_exact",
    "C14_load_exact",
    "C14_load_exact_text",
    "C14_directory_exact"
   ],
   "note": ""
  },
  {
   "property": "C15",
   "status": "partial",
   "theorems": [
    "C15_column_expression_iff",
    "C15_column_expression_refuted"
   ],
   "note": "Refuted as stated (a default with a line feed). The iff theorem is the exact characterisation of the triples that come back."
  },
  {
   "property": "C16",
   "status": "partial",
   "theorems": [
    "C16_named_key_iff",
    "C16_plain_key_iff",
    "C16_keys_refuted"
   ],
   "note": "Refuted as stated. The iff theorems give exactly the names and kinds that survive."
  },
  {
   "property": "C17",
   "status": "proved",
   "theorems": [
    "C17_varargs_round_trip"
   ],
   "note": ""
  },
  {
   "property": "C18",
   "status": "partial",
   "theorems": [
    "C18_forest_round_trip_iff",
    "C18_forest_refuted"
   ],
   "note": "Refuted as stated (names with outer blanks, equal siblings). The iff theorem is exact. Text syntax of YAML is not modelled."
  },
  {
   "property": "C19",
   "status": "partial",
   "theorems": [
    "C19_constraint_round_trip_iff",
    "C19_constraint_refuted"
   ],
   "note": "Refuted as stated (dotted table names, empty column lists). The iff theorem is exact."
  },
  {
   "property": "C20",
   "status": "partial",
   "theorems": [
    "C20_sequence_round_trip_iff",
    "C20_sequence_document_refuted"
   ],
   "note": "Exact at the level of nodes; through a document a sequence with increment other than 1 is refused."
  },
  {
   "property": "C21",
   "status": "partial",
   "theorems": [
    "C21_view_round_trip_iff",
    "C21_index_round_trip_iff",
    "C21_function_round_trip_iff",
    "C21_index_document_refuted"
   ],
   "note": "Exact at the level of nodes; through a document indexes with a method other than btree are refused, and indexes on tables named update.../delete... abort."
  },
  {
   "property": "C22",
   "status": "partial",
   "theorems": [
    "C22_save_load_iff",
    "C22_save_load_partial",
    "C22_save_load_refuted"
   ],
   "note": "Refuted as stated; the iff theorem is the exact characterisation, under all orders: a well-formed snapshot with 64-bit sequence attributes comes back exactly if it is savable. YAML text syntax is not modelled."
  },
  {
   "property": "C23",
   "status": "partial",
   "theorems": [
    "C23_aborts_iff",
    "C23_directory_aborts_iff",
    "C23_directory_aborts",
    "C23_only_file_aborts",
    "C23_no_panic_partial",
    "C23_no_panic_refuted",
    "C23_key_panic_iff",
    "C23_constraint_panic_iff",
    "C23_index_panic_iff",
    "C23_sequence_panic_iff"
   ],
   "note": "Refuted as stated (seven documents). The iff theorems are the exact characterisations of the documents, and of the directories of files, on which loading aborts."
  },
  {
   "property": "C24",
   "status": "partial",
   "theorems": [
    "C24_loaded_wf",
    "C24_loaded_exactly",
    "C24_unknown_attributes_partial",
    "C24_unknown_attributes_refuted"
   ],
   "note": "Well-formedness and exact content proved; unknown attributes are rejected everywhere except under an index, where this is refuted."
  },
  {
   "property": "C25",
   "status": "partial",
   "theorems": [
    "C25_sequence_defaults",
    "C25_sequence_start",
    "C25_one_bound_refuted",
    "C25_min_omitted_iff",
    "C25_max_omitted_iff"
   ],
   "note": "Proved when all bounds are omitted (any increment, any type); refuted when one bound is given, with the exact condition for each bound."
  },
  {
   "property": "C26",
   "status": "partial",
   "theorems": [
    "C26_no_path_fails_refuted",
    "C26_range_is_path",
    "C26_no_path_fails_partial",
    "C26_range_reachable"
   ],
   "note": "The returned list is exactly the path, on every directory whose files carry the names they contain. That a missing path is always an error is refuted (circular predecessors loop forever); it holds without circles and on every reachable history."
  },
  {
   "property": "C27",
   "status": "partial",
   "theorems": [
    "C27_error_order_refuted",
    "C27_rejects_branches_refuted",
    "C27_loading_order_partial",
    "C27_rejects_branches_partial",
    "C27_loading_exact"
   ],
   "note": "Refuted as stated: the text of the Branched error depends on the listing, and a branch is missed when a version name ends in .yaml. Proved: success with its value, and divergence, are the same for all listings; branches among plain names are rejected; exact condition for loading."
  },
  {
   "property": "C28",
   "status": "proved",
   "theorems": [
    "C28_current_is_last_made",
    "C28_every_reachable_history"
   ],
   "note": ""
  },
  {
   "property": "C29",
   "status": "proved",
   "theorems": [
    "C29_histories_linear",
    "C29_histories_load_and_replay",
    "C29_one_statement_per_change"
   ],
   "note": "Commands may fail anywhere but are not killed; make gets a new plain name (C31 and C32 cover the rest)."
  },
  {
   "property": "C30",
   "status": "proved",
   "theorems": [
    "C30_make_moves_stage",
    "C30_make_nothing_staged",
    "C30_made_versions_stay"
   ],
   "note": ""
  },
  {
   "property": "C31",
   "status": "partial",
   "theorems": [
    "C31_same_second_refuted",
    "C31_suffix_refuted",
    "C31_slash_refuted",
    "C31_make_succeeds_partial",
    "C31_make_succeeds_iff"
   ],
   "note": "Refuted: same name in the same second, names ending in .yaml, names with a slash. The iff theorem is the exact condition: the name is plain and not taken."
  },
  {
   "property": "C32",
   "status": "partial",
   "theorems": [
    "C32_crash_refuted",
    "C32_interrupted_loads_iff",
    "C32_made_versions_survive_partial",
    "C32_make_keeps_changes_partial"
   ],
   "note": "Refuted: every interruption after the first file operation leaves a history that does not load, and stage or reset can lose the staged changes. Made versions survive always, and make never loses staged changes. File operations (create/truncate, write) are the crash points; reordering by the file system is not modelled."
  },
  {
   "property": "C33",
   "status": "partial",
   "theorems": [
    "C33_terminates_refuted",
    "C33_range_hangs_iff",
    "C33_loading_hangs_iff",
    "C33_terminates_partial"
   ],
   "note": "Refuted by circular predecessors, which are the only cause; reachable histories always terminate."
  },
  {
   "property": "C34",
   "status": "proved",
   "theorems": [
    "C34_reset_exact"
   ],
   "note": ""
  },
  {
   "property": "C35",
   "status": "partial",
   "theorems": [
    "C35_stage_converges_refuted",
    "C35_stage_succeeds_refuted",
    "C35_stage_exact_partial",
    "C35_stage_succeeds_iff",
    "C35_stage_fails",
    "C35_definitions_wf"
   ],
   "note": "Refuted: owned new sequences are staged without owner, and stage fails for some hash orders. Proved: the exact snapshot and changes after a successful stage, and exactly when the following status is empty."
  },
  {
   "property": "C36",
   "status": "partial",
   "theorems": [
    "C36_exactly_as_before_refuted",
    "C36_up_atomic_partial",
    "C36_down_atomic_partial",
    "C36_down_exactly",
    "C36_up_gap"
   ],
   "note": "All statements, all failures and all crash points between operations. For down the database is exactly as before; for up exactly but for the SERIAL counter of the version table, which is not transactional and keeps a gap of at most the number of pending versions (refuted as stated by that). Assumed of the server: a transaction that is not committed has no effect except on sequences."
  },
  {
   "property": "C37",
   "status": "proved",
   "theorems": [
    "C37_up_applies",
    "C37_up_succeeds"
   ],
   "note": "For every directory whose documents are stored under their own names (all that the commands produce are). The second theorem gives success unless a script statement fails or the server refuses the COMMIT (deferred constraints), for reachable histories and databases."
  },
  {
   "property": "C38",
   "status": "proved",
   "theorems": [
    "C38_down_reverts",
    "C38_down_succeeds"
   ],
   "note": "For every table with distinct names and numbers, which the constraints of the table guarantee. The second theorem: for databases reached by up and down, only a failing statement or a refused COMMIT makes it fail."
  },
  {
   "property": "C39",
   "status": "proved",
   "theorems": [
    "C39_down_after_up",
    "C39_round_trip"
   ],
   "note": "The version table is restored up to the position of its SERIAL counter. The server may refuse the COMMIT of the second command; for the round trip the starting state must be one it accepts (settled)."
  },
  {
   "property": "C40",
   "status": "partial",
   "theorems": [
    "C40_chain_is_path_refuted",
    "C40_current_partial"
   ],
   "note": "Refuted when up is given the stage as its target and the stage is then made. Proved for all command sequences in which up is never given the stage."
  },
  {
   "property": "C41",
   "status": "proved",
   "theorems": [
    "C41_up_again"
   ],
   "note": "The second run returns successfully (unless killed) and leaves the database equal, for every target."
  },
  {
   "property": "C42",
   "status": "proved",
   "theorems": [
    "C42_init_stays",
    "C42_down_spares_oldest"
   ],
   "note": ""
  },
  {
   "property": "C43",
   "status": "proved",
   "theorems": [
    "C43_chain",
    "C37_up_succeeds",
    "C38_down_succeeds"
   ],
   "note": "That no constraint is ever violated is in the two success theorems: a migration aborts only if a script statement fails."
  },
  {
   "property": "C44",
   "status": "partial",
   "theorems": [
    "C44_quoted_iff",
    "C44_statement_object_iff",
    "C44_created_index_iff",
    "C44_schema_name_iff",
    "C44_names_distinct",
    "C44_quoting_refuted",
    "C44_schema_statement_refuted"
   ],
   "note": "Refuted as stated: double quotes are not escaped and schema names are not quoted. The exact conditions are proved for every statement."
  },
  {
   "property": "C45",
   "status": "partial",
   "theorems": [
    "C45_set_not_null",
    "C45_add_column_never",
    "C45_add_column_opposite",
    "C45_create_table_iff",
    "C45_create_table_nullable",
    "C45_nullability_refuted"
   ],
   "note": "Refuted as stated: adding a column always states the opposite, creating a table always makes columns nullable. Proved for changing nullability."
  },
  {
   "property": "C46",
   "status": "partial",
   "theorems": [
    "C46_deferral_iff",
    "C46_deferral_refuted"
   ],
   "note": "Refuted as stated; exact condition proved for all eight kinds of statement, given check text that does not end in NOT and a known rule."
  },
  {
   "property": "C47",
   "status": "partial",
   "theorems": [
    "C47_same_sql_iff",
    "C47_same_sql_refuted"
   ],
   "note": "Refuted as stated; for plain changes the text determines the change exactly up to sql_image."
  },
  {
   "property": "C48",
   "status": "partial",
   "theorems": [
    "C48_expand_reads_partial",
    "C48_expand_exact",
    "C48_one_reading",
    "C48_every_value_refuted"
   ],
   "note": "The value is read in exactly one way as characters and references, and each reference is replaced once; exact for every environment. Refuted as stated for variables set to bytes that are not UTF-8: they count as unset."
  },
  {
   "property": "C49",
   "status": "partial",
   "theorems": [
    "C49_nearest_project_partial",
    "C49_no_project_iff",
    "C49_fails_only_refuted"
   ],
   "note": "Discovery uses the nearest configuration, and there is none exactly if no directory has one. 'Fails only if none has' is refuted: a configuration that cannot be read hides those further out. Symbolic links and permissions are not modelled."
  },
  {
   "property": "C50",
   "status": "partial",
   "theorems": [
    "C50_init_refuted",
    "C50_existing_partial",
    "C50_init_touches",
    "C50_init_fresh"
   ],
   "note": "Proved when the configuration can be read, and for all files outside the places init writes. Refuted when the configuration cannot be read: the staged changes are overwritten."
  },
  {
   "property": "C51",
   "status": "partial",
   "theorems": [
    "C51_up_refuted",
    "C51_up_without_default_refuted",
    "C51_status_refuted",
    "C51_stage",
    "C51_reset",
    "C51_make",
    "C51_down",
    "C51_up_partial",
    "C51_up_exact",
    "C51_status_exact"
   ],
   "note": "Proved for stage, reset, make and down. Refuted for up and status, which use the directories of the default profile; the exact theorems say for every project what those two do."
  },
  {
   "property": "C52",
   "status": "partial",
   "theorems": [
    "C52_every_command_refuted",
    "C52_broken",
    "C52_dispatched_partial",
    "C52_unknown"
   ],
   "note": "Refuted: clone, print and sync always end in a panic. The other seven are dispatched as advertised."
  },
  {
   "property": "C53",
   "status": "proved",
   "theorems": [
    "C53_snapshot_exact",
    "C53_snapshot_determined",
    "C53_succeeds",
    "C53_fails"
   ],
   "note": "For all results of the ten queries that have the shape the code expects (described)."
  },
  {
   "property": "C54",
   "status": "partial",
   "theorems": [
    "C54_captured_partial",
    "C54_view_lost",
    "C54_never_a_view",
    "C54_captured_refuted"
   ],
   "note": "All objects but views are captured, with the attributes named in SpecCatalog.shows; views are never loaded, so the full statement is refuted."
  },
  {
   "property": "C55",
   "status": "proved",
   "theorems": [
    "C55_file_read_back",
    "C55_row_read_back",
    "C55_order_of_keys"
   ],
   "note": "The derived serde instances for Version and all 30 changes, between Rust values and serde's data model (maps, sequences, strings, booleans, integers, null). Printing and parsing that data as YAML/JSON text is done by serde_yaml/serde_json, which appear as parameters assumed to read back what they wrote."
  },
  {
   "property": "C56",
   "status": "partial",
   "theorems": [
    "C56_any_schema_refuted",
    "C56_misread_schema_fails",
    "C56_new_database_partial",
    "C57_first_up_iff"
   ],
   "note": "Refuted for names the server folds (Podo). The iff theorem is the exact condition for the first up."
  },
  {
   "property": "C57",
   "status": "partial",
   "theorems": [
    "C57_applicable_refuted",
    "C57_too_long",
    "C57_fits_partial",
    "C57_made_name_short",
    "C57_first_up_iff"
   ],
   "note": "Refuted for version names above 128 characters. The iff theorem is the exact condition for the first up: names of at most 128 characters, texts without NUL, statements that succeed."
  },
  {
   "property": "C58",
   "status": "partial",
   "theorems": [
    "C58_writable_iff",
    "C58_writable_refuted"
   ],
   "note": "Refuted, with the exact set of texts that can be written: those in which no reference occurs."
  },
  {
   "property": "C59",
   "status": "partial",
   "theorems": [
    "C59_every_field_refuted",
    "C59_expanded_partial",
    "C59_fields_exact"
   ],
   "note": "Refuted for the metadata schema, proved for the other fields; the exact theorem says for every document what each field is."
  },
  {
   "property": "C60",
   "status": "partial",
   "theorems": [
    "C60_exit_status_refuted",
    "C60_exit_status_exact"
   ],
   "note": "Refuted: an error that can be displayed ends in status 0. The exact status is proved for every outcome."
  },
  {
   "property": "C61",
   "status": "partial",
   "theorems": [
    "C61_displayed_refuted",
    "C60_exit_status_exact"
   ],
   "note": "Refuted for errors of a snapshot, whose display panics; all others are displayed."
  },
  {
   "property": "C62",
   "status": "proved",
   "theorems": [
    "C62_ready"
   ],
   "note": "Assumes that serde_yaml reads back the configuration and the version files it wrote."
  },
  {
   "property": "C63",
   "status": "proved",
   "theorems": [
    "C63_status"
   ],
   "note": "For the directories that status uses (those of the default profile, see C51)."
  },
  {
   "property": "C64",
   "status": "partial",
   "theorems": [
    "C64_session_partial",
    "C64_stage_refines",
    "C64_reset_refines",
    "C64_make_refines"
   ],
   "note": "For the project that init makes, commands that are not killed (up and down may be), make with a new name and up not to the stage; C32 and C40 show that the others are necessary."
  },
  {
   "property": "C65",
   "status": "partial",
   "theorems": [
    "C65_clones_iff",
    "C65_overloaded_refuted",
    "C65_foreign_key_refuted"
   ],
   "note": "The full statement is false; the databases that can be cloned are characterised exactly (clonable)."
  },
  {
   "property": "C66",
   "status": "partial",
   "theorems": [
    "C54_captured_partial",
    "C66_pairing_lost",
    "C66_pairing_refuted",
    "C66_partitioned_bare",
    "C66_index_columns_lost",
    "C66_index_lost",
    "C66_match_simple_lost"
   ],
   "note": "The attributes named in SpecCatalog.shows are preserved; the pairing and the match type of foreign keys, the columns of partitioned tables, the columns of indexes with expressions and unique indexes that foreign keys use are lost, so the full statement is refuted."
  },
  {
   "property": "C67",
   "status": "proved",
   "theorems": [
    "C67_new_project_clean"
   ],
   "note": "Assumes that serde_yaml reads back what it wrote."
  },
  {
   "property": "C68",
   "status": "partial",
   "theorems": [
    "C68_stage_status",
    "C68_stage_again_partial",
    "C68_stage_status_refuted",
    "C68_stage_again_refuted"
   ],
   "note": "Refuted for new sequences with an owner; the condition is exact."
  },
  {
   "property": "C69",
   "status": "partial",
   "theorems": [
    "C69_cycle",
    "C69_statements",
    "C69_cycle_refuted"
   ],
   "note": "The version, the stage and the statements as stated; what is left to stage is exactly the new sequences with an owner, so the full statement is refuted."
  },
  {
   "property": "C70",
   "status": "partial",
   "theorems": [
    "C70_clone_iff",
    "C70_clone_partial",
    "C70_clone_exact",
    "C70_clone_refuted"
   ],
   "note": "Refuted as stated; the definitions that clone writes are loaded as the database exactly if it can be written as definitions (savable). The command line never reaches the function (C52)."
  },
  {
   "property": "C71",
   "status": "proved",
   "theorems": [
    "C71_column_reading_iff",
    "C71_one_reading",
    "C71_rejected_iff",
    "C71_language"
   ],
   "note": "The regular expression is matched with the leftmost-first semantics of Regex.v."
  },
  {
   "property": "C72",
   "status": "proved",
   "theorems": [
    "C72_document_means",
    "C72_one_meaning",
    "C72_objects_mean",
    "C72_rejected_iff",
    "C23_aborts_iff"
   ],
   "note": "The meaning is defined in SpecMeaning.v as relations between trees, nodes and objects. The text syntax of YAML is not modelled."
  },
  {
   "property": "C73",
   "status": "partial",
   "theorems": [
    "C73_report_iff",
    "C73_faulty_iff",
    "C73_named_in_text",
    "C73_displayed",
    "C73_document_report",
    "C73_index_refuted",
    "C73_later_refuted",
    "C73_place_refuted"
   ],
   "note": "The error of a schema is exactly the report of its mistakes, and every faulty object and table entry is named in the text. Refuted: mistakes in the attributes of an index are forgotten, those of a later schema are not looked for, the text does not show whether a node is in a table or after it. The wording for malformed keys and values is a parameter."
  },
  {
   "property": "C74",
   "status": "proved",
   "theorems": [
    "C74_ups_in_order",
    "C74_disagreement_refuted",
    "concurrent_up_is_up",
    "concurrent_up_alone"
   ],
   "note": "Directories must agree: without that it is refuted. The programs are proved to be the commands of the sequential model, and its runs to be runs of this one (concurrent_up_is_up, concurrent_down_is_down, concurrent_up_alone, concurrent_down_alone). PostgreSQL's read committed behaviour on the version table is part of the model; locks taken by scripts are not modelled."
  },
  {
   "property": "C75",
   "status": "proved",
   "theorems": [
    "C75_up_arrives"
   ],
   "note": "The programs are proved to be the commands of the sequential model, and its runs to be runs of this one (concurrent_up_is_up, concurrent_down_is_down, concurrent_up_alone, concurrent_down_alone). PostgreSQL's read committed behaviour on the version table is part of the model; locks taken by scripts are not modelled."
  },
  {
   "property": "C76",
   "status": "proved",
   "theorems": [
    "C76_chain_survives",
    "concurrent_down_is_down",
    "concurrent_down_alone"
   ],
   "note": "The programs are proved to be the commands of the sequential model, and its runs to be runs of this one (concurrent_up_is_up, concurrent_down_is_down, concurrent_up_alone, concurrent_down_alone). PostgreSQL's read committed behaviour on the version table is part of the model; locks taken by scripts are not modelled."
  },
  {
   "property": "C77",
   "status": "proved",
   "theorems": [
    "C77_no_deadlock"
   ],
   "note": "There is always a way to finish; fairness of the server's scheduling is not modelled, and neither are locks taken by scripts. The programs are proved to be the commands of the sequential model, and its runs to be runs of this one (concurrent_up_is_up, concurrent_down_is_down, concurrent_up_alone, concurrent_down_alone). PostgreSQL's read committed behaviour on the version table is part of the model; locks taken by scripts are not modelled."
  },
  {
   "property": "C78",
   "status": "partial",
   "theorems": [
    "C78_down_once_refuted",
    "C78_current_refuted",
    "C78_downs_only_remove_partial"
   ],
   "note": "Refuted as stated by schedules of two and three commands. With downs alone the table keeps increasing numbers and only loses versions; missing is anything about what takes effect when downs overlap, since it is false. The programs are proved to be the commands of the sequential model, and its runs to be runs of this one (concurrent_up_is_up, concurrent_down_is_down, concurrent_up_alone, concurrent_down_alone). PostgreSQL's read committed behaviour on the version table is part of the model; locks taken by scripts are not modelled."
  },
  {
   "property": "C79",
   "status": "proved",
   "theorems": [
    "C79_up_same_effect",
    "C79_down_same_effect",
    "C79_up_tells",
    "C79_down_tells"
   ],
   "note": "Colours are parameters; a kill is possible before every line. "
  },
  {
   "property": "C80",
   "status": "partial",
   "theorems": [
    "C80_output_refuted",
    "C80_up_effect_partial",
    "C80_down_effect_partial"
   ],
   "note": "Refuted as stated: a refused COMMIT prints the same as a success (and the process ends with status 0). Proved: if the database changed, the command succeeded, so the account is complete by C79. "
  },
  {
   "property": "C81",
   "status": "partial",
   "theorems": [
    "C81_made_refuted",
    "C81_make_same_effect",
    "C81_make_tells_partial"
   ],
   "note": "Refuted as stated: the version is announced before it is saved. Proved: nothing is made without being announced, and on success what is announced exists. "
  },
  {
   "property": "C82",
   "status": "partial",
   "theorems": [
    "C82_listed_refuted",
    "C82_stage_same_effect",
    "C82_stage_tells_partial"
   ],
   "note": "Refuted as stated: the list is printed before the changes are applied and saved. Proved: the exact list, and on success it is what is added. "
  },
  {
   "property": "C83",
   "status": "proved",
   "theorems": [
    "C83_status_tells"
   ],
   "note": "Colours and the text of database errors are parameters. "
  },
  {
   "property": "C84",
   "status": "partial",
   "theorems": [
    "C84_says_refuted",
    "C84_says_iff",
    "C84_create_table",
    "C84_add_column",
    "C84_foreign_key",
    "C84_function"
   ],
   "note": "Refuted as stated. The iff theorem is the exact set of changes whose statement says what they mean, for all 30 kinds with well-formed names and texts; the others say what becomes of the rest: NOT NULL lost or inverted, foreign keys and functions never statements."
  },
  {
   "property": "C85",
   "status": "partial",
   "theorems": [
    "C85_effect_refuted",
    "C85_effect_iff"
   ],
   "note": "Refuted as stated (primary keys, dropped columns and tables). The iff theorem is the exact condition, for all snapshots and databases. What the data, privileges and the evaluation of expressions contribute is outside the specification of PostgreSQL used."
  },
  {
   "property": "C86",
   "status": "partial",
   "theorems": [
    "C86_up_refuted",
    "C86_up_partial",
    "C86_in_step_iff",
    "C86_up_refuses"
   ],
   "note": "Refuted as stated (NOT NULL is lost). Proved for versions whose changes say what they mean, have no effects besides (a condition that in_step_iff shows to be exact for every statement) and are acceptable (exact by C89); a version with a foreign key or a function is never applied. Server: SpecServer."
  },
  {
   "property": "C87",
   "status": "partial",
   "theorems": [
    "C87_down_refuted",
    "C87_down_partial"
   ],
   "note": "Refuted as stated (a dropped column comes back with the wrong nullability). Proved where the stored changes lead back in the snapshot and say what they mean."
  },
  {
   "property": "C88",
   "status": "partial",
   "theorems": [
    "C88_cycle_partial",
    "C92_cycle_refuted"
   ],
   "note": "Refuted as stated (three commands succeed and NOT NULL is lost). Proved where the staged changes say what they mean and have no effects besides; C92 gives the exact condition where they do so but for NOT NULL. expected_db is the exact target (C67)."
  },
  {
   "property": "C89",
   "status": "partial",
   "theorems": [
    "C89_accepted_refuted",
    "C89_accepted_iff",
    "C89_acceptable_iff"
   ],
   "note": "Refuted as stated: renaming a primary key, making a key deferrable, moving the name of a key to another table (depends on the hash order). The iff theorems give the exact condition in terms of the snapshot, for every change and every list of changes. What data, privileges and expressions contribute is outside the specification of PostgreSQL used."
  },
  {
   "property": "C90",
   "status": "proved",
   "theorems": [
    "C90_spelled",
    "C90_says_iff",
    "C90_in_step"
   ],
   "note": "For all pairs of well-formed snapshots and all hash orders; the condition is stated on the two snapshots alone. PostgreSQL's reading is SpecStatement. "
  },
  {
   "property": "C91",
   "status": "proved",
   "theorems": [
    "C91_renamed_key",
    "C91_deferrability"
   ],
   "note": "For differences that can be said (C90) and databases as the snapshot describes them, with the server of SpecServer. "
  },
  {
   "property": "C92",
   "status": "proved",
   "theorems": [
    "C92_nulls_iff",
    "C92_accepted_iff",
    "C92_diff_iff",
    "C92_diff_carried_out",
    "C92_up_iff",
    "C92_cycle_iff",
    "C92_fresh_iff",
    "C92_cycle_refuted"
   ],
   "note": "Exact characterisation from the snapshots alone, through the diff and through stage, make and up; cycle_refuted is a session on the other side of it. Server: SpecServer."
  },
  {
   "property": "C93",
   "status": "proved",
   "theorems": [
    "C93_adds_iff",
    "C93_adds_carried_out",
    "C93_cycle_adds",
    "C93_applied_refuted"
   ],
   "note": "From the two snapshots alone, for all hash orders; applied_refuted: changes that apply to the snapshot and lead to the definitions may still be refused. That new indexes are on old tables or otherwise safe from the hash order (indexes_safe, exact by C01_diff_applies_iff) and that new sequences have no owner is assumed. Server: SpecServer."
  },
  {
   "property": "C94",
   "status": "proved",
   "theorems": [
    "C94_taken_back",
    "C94_versions",
    "C94_down",
    "C94_up_down",
    "C94_null_refuted",
    "C94_indexed_refuted"
   ],
   "note": "From the two snapshots alone, for all hash orders, with the exact condition for NOT NULL; null_refuted and indexed_refuted show that neither that condition nor the one on new columns can be left out. That the snapshot is self-contained, new indexes are safe from the hash order and new sequences have no owner is assumed. Server: SpecServer."
  },
  {
   "property": "C95",
   "status": "partial",
   "theorems": [
    "C95_index_before_column",
    "C95_index_without_column",
    "C95_server_without_column_partial",
    "C95_index_refused_partial"
   ],
   "note": "Proved: the order of the statements and that the snapshot has no such column when the index is created, for all hash orders and whatever else differs. Where the definitions only add: the server has no such column either, and refuses if it looks for the columns that the index names (indexes_checked). Missing: the server where the definitions do more than add, and keys that are expressions around the column."
  }
 ]
}