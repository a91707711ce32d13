(** Property theorems C15 to C25 and C71: definition documents. *)
From Verif Require Import Base Text Types Changes SpecSnapshot Node Yaml Regex SpecRegex SpecDefinition Ddl Load SpecMerge
  TextLemmas KeyLemmas YamlLemmas DdlLemmas ParseLemmas SaveLemmas SaveIff PanicLemmas ContentLemmas
  SequenceLemmas DiffOrder MergeLemmas DefinitionLemmas SnapshotExamples DefinitionExamples.

(** ** C15: column expressions

    The triple comes back exactly when the type has no '=' or '!' and no white space at its
    ends (nor is it empty, unless only a default follows), and the default has no line feed
    and no white space at its ends. *)
Theorem C15_column_expression_iff ty notnull default :
  parse_column_expression (render_column_expression ty notnull default) = Done (ty, notnull, default) <->
  column_writable ty notnull default.
Proof. exact (column_round_trip_iff ty notnull default). Qed.
Print Assumptions C15_column_expression_iff.

Theorem C15_column_expression_refuted :
  exists ty notnull default,
    parse_column_expression (render_column_expression ty notnull default) <> Done (ty, notnull, default).
Proof. exact column_expression_refuted. Qed.
Print Assumptions C15_column_expression_refuted.

Example C15_example :
  column_writable (L "character varying(20)") true (Some (L "'a = b!'")) /\
  ~ column_writable (L "text") false (Some [39; 10; 39]%N).
Proof. exact column_writable_example. Qed.

(** ** C71: how the expression of a column is read

    The captures of the leftmost-first match are the only reading of the expression. *)
Theorem C71_column_reading_iff e ty notnull default :
  parse_column_expression e = Done (ty, notnull, default) <-> column_reading e ty notnull default.
Proof. exact (column_reading_iff e ty notnull default). Qed.
Print Assumptions C71_column_reading_iff.

Theorem C71_one_reading e ty nn d ty' nn' d' :
  column_reading e ty nn d -> column_reading e ty' nn' d' -> ty' = ty /\ nn' = nn /\ d' = d.
Proof. exact (column_reading_one e ty nn d ty' nn' d'). Qed.
Print Assumptions C71_one_reading.

Theorem C71_rejected_iff e :
  parse_column_expression e = Fail (InvalidTypeExpression e) <-> ~ exists ty nn d, column_reading e ty nn d.
Proof. exact (column_rejected_iff e). Qed.
Print Assumptions C71_rejected_iff.

(** Preference decides between matches, not whether there is one. *)
Theorem C71_language e :
  (exists ty nn d, parse_column_expression e = Done (ty, nn, d)) <->
  exists b w a, e = b ++ w ++ a /\ spans column_regex b w a.
Proof. exact (column_language e). Qed.
Print Assumptions C71_language.

Example C71_example :
  column_reading (L "varchar(20) ! =  'a = b!' ") (L "varchar(20)") true (Some (L "'a = b!'")) /\
  column_reading (L "int =" ++ [10%N] ++ L "5") (L "int") false (Some (L "5")) /\
  ~ (exists ty nn d, column_reading (L "text = 'a" ++ [10%N] ++ L "b'") ty nn d) /\
  ~ (exists ty nn d, column_reading (L "int ! x") ty nn d).
Proof. exact column_reading_example. Qed.

(** ** C16: keys of mappings *)
Theorem C16_named_key_iff kind name child :
  kind ∈ named_kinds ->
  create_node_from_mapping_key (render_node_key (MkNode kind (Some name) child)) = Done (kind, Some name) <->
  name_writable kind name.
Proof. exact (named_kind_iff kind name child). Qed.
Print Assumptions C16_named_key_iff.

(** Of the kinds written without a name, two are not recognised. *)
Theorem C16_plain_key_iff kind child :
  kind ∈ plain_kinds ->
  create_node_from_mapping_key (render_node_key (MkNode kind None child)) = Done (kind, None) <->
  kind <> L "using" /\ kind <> L "increment".
Proof. exact (plain_key_iff kind child). Qed.
Print Assumptions C16_plain_key_iff.

(** An index on a table called "updates" is read as the attribute "on update"; the kind
    "using" is not read at all. *)
Theorem C16_keys_refuted :
  (exists kind name child, kind ∈ named_kinds /\ name <> [] /\ bare name /\
     create_node_from_mapping_key (render_node_key (MkNode kind (Some name) child)) <> Done (kind, Some name)) /\
  (exists kind child, kind ∈ plain_kinds /\
     create_node_from_mapping_key (render_node_key (MkNode kind None child)) <> Done (kind, None)).
Proof. exact keys_refuted. Qed.
Print Assumptions C16_keys_refuted.

Example C16_example :
  name_writable (L "table") (L "order items") /\ L "table" ∈ named_kinds /\
  ~ name_writable (L "on") (L "Updates") /\ L "primary key" ∈ plain_kinds.
Proof. exact name_writable_example. Qed.

(** ** C17: scalar-or-list *)
Theorem C17_varargs_round_trip l : to_string_varargs (from_string_varargs l) = Some l.
Proof. exact (varargs_round_trip l). Qed.
Print Assumptions C17_varargs_round_trip.

(** One string is written as a scalar, everything else as a list. *)
Example C17_example :
  from_string_varargs [L "id"] = VString (L "id") /\ from_string_varargs [] = VList [] /\
  from_string_varargs [L "a"; L "b"] = VList [VString (L "a"); VString (L "b")].
Proof. exact (conj eq_refl (conj eq_refl eq_refl)). Qed.

(** ** C18: trees of nodes *)
Theorem C18_forest_round_trip_iff l :
  parse_mapping_to_nodes (render_nodes_to_mapping l) = Done l <-> forest_writable l.
Proof. exact (forest_round_trip l). Qed.
Print Assumptions C18_forest_round_trip_iff.

Theorem C18_forest_refuted : exists l, parse_mapping_to_nodes (render_nodes_to_mapping l) <> Done l.
Proof. exact forest_refuted. Qed.
Print Assumptions C18_forest_refuted.

Example C18_example : forest_writable (node_list g_doc) /\ length (node_list g_doc) = 1.
Proof. exact forest_example. Qed.

(** ** C19: constraints *)
Theorem C19_constraint_round_trip_iff s t c :
  parse_constraint_definition s t (render_constraint_definition s c) = Done c <->
  constraint_schema c = s /\ constraint_table c = t /\ constraint_writable s c.
Proof. exact (constraint_round_trip s t c). Qed.
Print Assumptions C19_constraint_round_trip_iff.

(** A reference to a table whose name has a dot is lost, and so are a unique constraint
    without columns and a foreign key without referenced columns. *)
Theorem C19_constraint_refuted :
  (exists c, (forall s t, c <> CUnique (Unique s t (constraint_name c) [] false false)) /\
     parse_constraint_definition (constraint_schema c) (constraint_table c)
       (render_constraint_definition (constraint_schema c) c) <> Done c) /\
  (exists c, parse_constraint_definition (constraint_schema (CUnique c)) (constraint_table (CUnique c))
     (render_constraint_definition (constraint_schema (CUnique c)) (CUnique c)) <> Done (CUnique c)).
Proof. exact constraint_refuted. Qed.
Print Assumptions C19_constraint_refuted.

Example C19_example :
  map_Forall (fun _ c => constraint_schema c = L "public" /\ constraint_table c = L "order items" /\
    constraint_writable (L "public") c) (tb_constraints s_table) /\ size (tb_constraints s_table) = 4.
Proof. exact constraint_example. Qed.

(** ** C20: sequences *)
Theorem C20_sequence_round_trip_iff ctx s :
  (n ← render_sequence_definition s; parse_sequence_definition ctx n) = Done s <->
  sq_schema s = ctx /\ sequence_writable s.
Proof. exact (sequence_round_trip ctx s). Qed.
Print Assumptions C20_sequence_round_trip_iff.

(** Through a document, a sequence whose increment is not 1 does not come back, whatever
    its other attributes: "increment" is not a keyword. *)
Theorem C20_sequence_document_refuted :
  exists d, wf_db d /\ machine_db d /\ (forall n k q, relation_at d n k = Some (RSequence q) -> sequence_writable q) /\
  forall o o', reload o o' d <> Done d.
Proof. exact sequence_document_refuted. Qed.
Print Assumptions C20_sequence_document_refuted.

Example C20_example :
  sequence_writable (Sequence (L "public") (L "ids") (L "int4") (-2) (-100) (-1) (-10) 5 true
    (Some (L "order items")) (Some (L "id"))).
Proof. exact sequence_example. Qed.

(** ** C21: views, indexes and functions *)
Theorem C21_view_round_trip_iff ctx v :
  (n ← render_view_definition ctx v; parse_view_definition ctx n) = Done v <->
  vw_schema v = ctx /\ vw_query v <> [].
Proof. exact (view_round_trip ctx v). Qed.
Print Assumptions C21_view_round_trip_iff.

Theorem C21_index_round_trip_iff ctx i :
  parse_index_definition ctx (render_index_definition i) = Done i <-> ix_schema i = ctx.
Proof. exact (index_round_trip ctx i). Qed.
Print Assumptions C21_index_round_trip_iff.

Theorem C21_function_round_trip_iff ctx f :
  parse_function_definition ctx (render_function_definition f) = Done f <-> fn_schema f = ctx.
Proof. exact (function_round_trip ctx f). Qed.
Print Assumptions C21_function_round_trip_iff.

(** Through a document, an index whose method is not btree is an error, and one on a table
    called "updates" aborts the program. *)
Theorem C21_index_document_refuted :
  (exists d, wf_db d /\ machine_db d /\ forall o o', exists e, reload o o' d = Fail e) /\
  (exists d, wf_db d /\ machine_db d /\ forall o o', reload o o' d = Panic).
Proof. exact index_document_refuted. Qed.
Print Assumptions C21_index_document_refuted.

Example C21_example :
  vw_query (View (L "public") (L "recent") (L "SELECT 1")) <> [] /\
  ix_schema (Index (L "public") (L "i") (L "t") true (L "gin") [L "doc"; L "id"]) = L "public" /\
  fn_schema (Function (L "public") (L "f") (L "() AS $$ $$") (L "SQL") (L "int8") (L "STABLE")) = L "public".
Proof. split; [discriminate|split; reflexivity]. Qed.

(** ** C22: whole snapshots *)
Theorem C22_save_load_partial o o' d :
  wf_db d -> machine_db d -> savable d ->
  exists m, save_document o d = Done m /\ load_document o' m = Done d.
Proof. exact (save_load o o' d). Qed.
Print Assumptions C22_save_load_partial.

(** Exactly the savable snapshots come back. *)
Theorem C22_save_load_iff o o' d :
  wf_db d -> machine_db d ->
  (exists m, save_document o d = Done m /\ load_document o' m = Done d) <-> savable d.
Proof. exact (save_load_iff o o' d). Qed.
Print Assumptions C22_save_load_iff.

(** Well-formed snapshots that are not loaded back: a default with a line feed, a reference
    to a table with a dot, an index that is not btree, an index on "updates", a sequence
    with increment 2, a view without a query. *)
Theorem C22_save_load_refuted :
  length not_saved = 6 /\
  Forall (fun d => wf_db d /\ machine_db d /\ forall o o', reload o o' d <> Done d) not_saved.
Proof. exact save_load_refuted. Qed.
Print Assumptions C22_save_load_refuted.

Example C22_example : wf_db s_db /\ machine_db s_db /\ savable s_db.
Proof. exact s_db_ok. Qed.

(** ** C23: loading aborts *)
Theorem C23_no_panic_partial o m : document_safe m -> load_document o m <> Panic.
Proof. exact (load_no_panic o m). Qed.
Print Assumptions C23_no_panic_partial.

Theorem C23_no_panic_refuted :
  length p_all = 7 /\ Forall (fun m => forall o, load_document o m = Panic) p_all.
Proof. exact no_panic_refuted. Qed.
Print Assumptions C23_no_panic_refuted.

(** Exactly when the pieces abort. *)
Theorem C23_key_panic_iff key : create_node_from_mapping_key key = Panic <-> ~ key_safe key.
Proof. exact (key_panic key). Qed.
Print Assumptions C23_key_panic_iff.

Theorem C23_constraint_panic_iff s t n :
  n_type n = L "constraint" -> parse_constraint_definition s t n = Panic <-> ~ constraint_safe n.
Proof. exact (parse_constraint_panic s t n). Qed.
Print Assumptions C23_constraint_panic_iff.

Theorem C23_index_panic_iff s n :
  n_type n = L "index" -> parse_index_definition s n = Panic <-> ~ index_safe n.
Proof. exact (parse_index_panic s n). Qed.
Print Assumptions C23_index_panic_iff.

Theorem C23_sequence_panic_iff s n :
  n_type n = L "sequence" -> parse_sequence_definition s n = Panic <-> ~ sequence_safe n.
Proof. exact (parse_sequence_panic s n). Qed.
Print Assumptions C23_sequence_panic_iff.

Example C23_example : document_safe g_doc.
Proof. exact g_doc_safe. Qed.

(** ** C24: what is loaded

    The snapshot is well formed; it has exactly the objects, columns and constraints the
    document names; nothing but known attributes occurs in it, except under an index. *)
Theorem C24_loaded_wf o m d : load_document o m = Done d -> wf_db d.
Proof. exact (load_document_wf o m d). Qed.
Print Assumptions C24_loaded_wf.

Theorem C24_loaded_exactly o m d :
  load_document o m = Done d -> exists l, parse_mapping_to_nodes m = Done l /\ defines l d.
Proof. exact (load_defines o m d). Qed.
Print Assumptions C24_loaded_exactly.

Theorem C24_unknown_attributes_partial o m d :
  load_document o m = Done d -> exists l, parse_mapping_to_nodes m = Done l /\ vetted [L "index"] l.
Proof. exact (load_vetted o m d). Qed.
Print Assumptions C24_unknown_attributes_partial.

Theorem C24_unknown_attributes_refuted :
  exists m, (forall o, exists d, load_document o m = Done d) /\
    forall l, parse_mapping_to_nodes m = Done l -> ~ vetted [] l.
Proof. exact unknown_attributes_refuted. Qed.
Print Assumptions C24_unknown_attributes_refuted.

Example C24_example : exists d, load_document any_order g_doc = Done d.
Proof. exact g_doc_loads. Qed.

(** C13 and C14 for the modelled parser of single files: [read] is the YAML reader. *)
Theorem C13_load_order_independent_text read os os' o o' dir dir' :
  relisted dir dir' ->
  load_snapshot (load_yaml_string read o) os dir = load_snapshot (load_yaml_string read o') os' dir'.
Proof. exact (load_text_order_independent read os os' o o' dir dir'). Qed.
Print Assumptions C13_load_order_independent_text.

Theorem C14_load_exact_text read os o dir d :
  load_snapshot (load_yaml_string read o) os dir = Some d <->
  exists cs l, definition_files dir cs /\ Some <$> l = load_yaml_string read o <$> cs /\ no_clashes l /\
    wf_db d /\ contains_exactly l d.
Proof. exact (load_text_exact read os o dir d). Qed.
Print Assumptions C14_load_exact_text.

(** ** C25: defaults of sequences *)
Theorem C25_sequence_defaults ctx n q :
  parse_sequence_definition ctx n = Done q ->
  omits (L "minvalue") n -> omits (L "maxvalue") n -> omits (L "start") n -> sequence_in_range q.
Proof. exact (sequence_all_omitted ctx n q). Qed.
Print Assumptions C25_sequence_defaults.

(** When only the start is omitted, it is in bounds unless there is nothing between them. *)
Theorem C25_sequence_start ctx n q :
  parse_sequence_definition ctx n = Done q -> omits (L "start") n ->
  start_in_bounds q <-> (sq_min q <= sq_max q)%Z.
Proof. exact (sequence_start_omitted ctx n q). Qed.
Print Assumptions C25_sequence_start.

(** With one bound given, the default of the other may be on the wrong side of it. *)
Theorem C25_one_bound_refuted :
  exists ctx n q, parse_sequence_definition ctx n = Done q /\ omits (L "minvalue") n /\
    omits (L "start") n /\ ~ start_in_bounds q.
Proof. exact one_bound_refuted. Qed.
Print Assumptions C25_one_bound_refuted.

(** Exactly when the defaults go together with the bound that is given. *)
Theorem C25_min_omitted_iff ctx n q :
  parse_sequence_definition ctx n = Done q -> omits (L "minvalue") n -> omits (L "start") n ->
  sequence_in_range q <->
  exists lo hi, type_range (sq_type q) = Some (lo, hi) /\
    (0 <= sq_increment q -> 1 <= sq_max q <= hi)%Z /\ (sq_increment q < 0 -> lo <= sq_max q < 0)%Z.
Proof. exact (sequence_min_omitted ctx n q). Qed.
Print Assumptions C25_min_omitted_iff.

Theorem C25_max_omitted_iff ctx n q :
  parse_sequence_definition ctx n = Done q -> omits (L "maxvalue") n -> omits (L "start") n ->
  sequence_in_range q <->
  exists lo hi, type_range (sq_type q) = Some (lo, hi) /\
    (0 <= sq_increment q -> 0 < sq_min q <= hi)%Z /\ (sq_increment q < 0 -> lo <= sq_min q <= -1)%Z.
Proof. exact (sequence_max_omitted ctx n q). Qed.
Print Assumptions C25_max_omitted_iff.

Example C25_example :
  exists q, parse_sequence_definition (L "public") seq_down = Done q /\ sq_increment q = (-3)%Z /\
    omits (L "minvalue") seq_down /\ omits (L "maxvalue") seq_down /\ omits (L "start") seq_down.
Proof. exact seq_down_ok. Qed.
