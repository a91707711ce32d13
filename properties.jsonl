{"id": "C01", "title": "Diff soundness: applying the computed changes reaches the target", "statement": "For any two well-formed snapshots S and T, the list returned by compare_diff(S,T), applied in order to S, applies without error and leaves a snapshot with exactly the schemas, relations (tables with their columns and constraints, views, sequences, indexes) and functions of T.", "quantifier": "all well-formed pairs of snapshots and every hash-map iteration order", "why_tests_cant": "Object graphs are unbounded and HashMap iteration order is random per process, so tests see one order of a few tiny snapshots.", "anchors": ["src/snapshot/diff.rs: compare_diff, diff_*", "src/snapshot/changes/mod.rs: Change::apply", "src/snapshot/tests/utils.rs"]}
{"id": "C02", "title": "A snapshot does not differ from itself", "statement": "compare_diff(S,S) is the empty list.", "quantifier": "all well-formed snapshots and every pair of hash-map iteration orders", "why_tests_cant": "Needs every shape of snapshot and every iteration order.", "anchors": ["src/snapshot/diff.rs: compare_diff"]}
{"id": "C03", "title": "Diff completeness: an empty diff means nothing is left to migrate", "statement": "If compare_diff(S,T) is empty then S and T contain the same objects with the same attributes (columns compared without regard to order).", "quantifier": "all well-formed pairs of snapshots", "why_tests_cant": "One missing attribute comparison in one object kind is only visible for pairs that differ in just that attribute.", "anchors": ["src/snapshot/diff.rs: diff_*_update"]}
{"id": "C04", "title": "Staging converges: a second diff after applying the first is empty", "statement": "If the changes of compare_diff(S,T) apply to S giving R, then compare_diff(R,T) is empty, so staging twice stages nothing the second time.", "quantifier": "all well-formed pairs of snapshots and all iteration orders", "why_tests_cant": "A field dropped by one change kind makes the diff oscillate only for snapshots that use that field.", "anchors": ["src/snapshot/diff.rs", "src/snapshot/changes", "src/cmd/stage.rs: stage"]}
{"id": "C05", "title": "Diff locality: unchanged objects are never touched", "statement": "Every change in compare_diff(S,T) addresses an object (schema, relation, function, column or constraint) whose state differs between S and T; no change names an object that is identical in both.", "quantifier": "all well-formed pairs, all iteration orders, all changes in the result", "why_tests_cant": "A stray change is only visible on specific pairs.", "anchors": ["src/snapshot/diff.rs"]}
{"id": "C06", "title": "Every staged change can be reverted at the moment it is staged", "statement": "Along the sequence S0 -> S1 -> ... obtained by applying compare_diff(S,T), change i's revert computed against S(i-1) succeeds, so `podo stage` never panics on revert.", "quantifier": "all well-formed pairs for which the changes apply, all positions in the list", "why_tests_cant": "revert reads intermediate states that depend on the whole prefix.", "anchors": ["src/cmd/stage.rs: stage", "src/snapshot/changes/*/*_change.rs: revert"]}
{"id": "C07", "title": "A single change followed by its revert restores the snapshot", "statement": "If change c applies to S giving S' and c.revert(S) gives r, then r applies to S' and gives S back.", "quantifier": "all change values of all 30 kinds and all well-formed snapshots", "why_tests_cant": "30 change kinds x arbitrary snapshots; information lost by a kind shows up only on objects carrying that information.", "anchors": ["src/snapshot/changes/*/*_change.rs: apply, revert"]}
{"id": "C08", "title": "A whole staged changeset can be rolled back", "statement": "Collecting the reverts while applying compare_diff(S,T) to S and then applying them in reverse order succeeds and restores S up to column order.", "quantifier": "all well-formed pairs, all iteration orders", "why_tests_cant": "Order interactions between reverts (an index re-created before its table) depend on hash iteration order.", "anchors": ["src/cmd/stage.rs: stage", "src/history/version.rs: add_down", "src/snapshot/tests/utils.rs"]}
{"id": "C09", "title": "A failed change leaves the snapshot untouched", "statement": "If a change's apply returns an error, the snapshot is exactly what it was before.", "quantifier": "all change values and all snapshots", "why_tests_cant": "Needs every failure point of every change kind.", "anchors": ["src/snapshot/changes/*/*_change.rs: apply"]}
{"id": "C10", "title": "A change alters only the object it names", "statement": "Applying a change leaves every schema other than the one it names unchanged, within that schema every relation and function other than the one it names, and within a table every column and constraint other than the one it names.", "quantifier": "all change values and all snapshots", "why_tests_cant": "Frame conditions are universal over everything not mentioned.", "anchors": ["src/snapshot/changes/*/*_change.rs: apply", "src/snapshot/types"]}
{"id": "C11", "title": "Snapshots stay consistent under any sequence of changes", "statement": "In any snapshot obtained from the empty one by any sequence of changes (failed ones included), every object is stored under its own name and parent names, and no table has two columns with the same name.", "quantifier": "all finite sequences of changes", "why_tests_cant": "Unbounded histories.", "anchors": ["src/snapshot/types/{database,schema,table}.rs", "src/snapshot/changes"]}
{"id": "C12", "title": "No dangling index", "statement": "In any snapshot reachable by changes, every index's table exists as a table in the same schema.", "quantifier": "all finite sequences of changes", "why_tests_cant": "Depends on which drops precede which.", "anchors": ["src/snapshot/changes/table/drop_table_change.rs: apply", "src/snapshot/changes/index/create_index_change.rs: apply"]}
{"id": "C13", "title": "Loading definitions does not depend on file order", "statement": "Loading the same set of definition files in any order either fails for every order or gives the same snapshot.", "quantifier": "all finite collections of per-file snapshots, all permutations", "why_tests_cant": "read_dir order is unspecified.", "anchors": ["src/definition/mod.rs: load_snpashot, collect_yaml_file", "src/snapshot/types/database.rs: merge"]}
{"id": "C14", "title": "Merging definitions never drops or overwrites an object", "statement": "Merging succeeds exactly when the files define no relation or function twice; the result then contains exactly the objects of the files, each unchanged.", "quantifier": "all pairs of snapshots", "why_tests_cant": "Universal over contents.", "anchors": ["src/snapshot/types/database.rs: merge", "src/snapshot/types/schema.rs: merge_schema"]}
{"id": "C15", "title": "Column expressions round-trip", "statement": "Rendering a column's type, nullability and default to the one-line form and parsing it back gives the same triple.", "quantifier": "all type strings, nullabilities and default strings", "why_tests_cant": "Infinite string space; regex edge cases.", "anchors": ["src/definition/ddl/column.rs: parse_column_expression, render_column_expression"]}
{"id": "C16", "title": "Object names survive the YAML key encoding", "statement": "For every object kind written by the renderer and every object name, the mapping key written for it is read back as the same kind and the same name.", "quantifier": "all kinds and all names", "why_tests_cant": "Keyword prefixes, case folding, trimming and byte slicing interact on particular names only.", "anchors": ["src/definition/base/yaml.rs: create_node_from_mapping_key, render_node_to_mapping_key, KEYWORDS"]}
{"id": "C17", "title": "String lists survive the scalar-or-list encoding", "statement": "Encoding any list of strings (column lists, key expressions) as scalar-or-list and decoding it gives the same list.", "quantifier": "all lists of strings", "why_tests_cant": "All lengths including 0 and 1.", "anchors": ["src/definition/base/node.rs: from_string_varargs, to_string_varargs"]}
{"id": "C18", "title": "Node trees round-trip through YAML mappings", "statement": "Rendering a tree of definition nodes to a YAML mapping and parsing it back gives the same tree.", "quantifier": "all trees of any depth and width", "why_tests_cant": "Unbounded recursion.", "anchors": ["src/definition/base/yaml.rs: parse_mapping_to_nodes, render_nodes_to_mapping"]}
{"id": "C19", "title": "Constraint definitions round-trip", "statement": "Rendering a primary key, unique, check or foreign key constraint to its definition node and parsing it in the same schema gives the same constraint.", "quantifier": "all constraints", "why_tests_cant": "Defaults are elided, so each combination of default/non-default attributes takes a different path.", "anchors": ["src/definition/ddl/primarykey.rs", "src/definition/ddl/unique.rs", "src/definition/ddl/check.rs", "src/definition/ddl/foreignkey.rs", "src/definition/ddl/constraint.rs"]}
{"id": "C20", "title": "Sequence definitions round-trip", "statement": "Rendering a sequence to its definition and loading it gives the same sequence.", "quantifier": "all sequences, all i64 attribute values", "why_tests_cant": "Six interdependent defaults over 64-bit values.", "anchors": ["src/definition/ddl/sequence.rs", "src/definition/defaults.rs"]}
{"id": "C21", "title": "View, index and function definitions round-trip", "statement": "Rendering a view, index or function to its definition and loading it gives the same object.", "quantifier": "all views, indexes and functions", "why_tests_cant": "As C19.", "anchors": ["src/definition/ddl/view.rs", "src/definition/ddl/index.rs", "src/definition/ddl/function.rs"]}
{"id": "C22", "title": "Saved snapshots load back", "statement": "Loading the YAML document written for a snapshot (init, clone) gives the same snapshot.", "quantifier": "all well-formed snapshots, all iteration orders", "why_tests_cant": "Composition of all codecs over unbounded object graphs.", "anchors": ["src/definition/mod.rs: save_snapshot, load_yaml_string", "src/definition/ddl/schema.rs", "src/definition/ddl/table.rs"]}
{"id": "C23", "title": "Loading a definition never panics", "statement": "For every YAML document, loading returns a snapshot or an error; it does not abort the process.", "quantifier": "all YAML documents", "why_tests_cant": "Universal over inputs; panics hide in unreachable!()/unwrap() branches.", "anchors": ["src/definition/ddl/*.rs", "src/definition/base/yaml.rs", "src/definition/mod.rs: load_yaml_string"]}
{"id": "C24", "title": "Loaded definitions are consistent", "statement": "Every snapshot loaded from definitions is well-formed: objects stored under their own names and parents, no duplicate columns; unknown attributes are rejected.", "quantifier": "all YAML documents that load", "why_tests_cant": "Universal over inputs.", "anchors": ["src/definition/ddl/*.rs", "src/definition/mod.rs"]}
{"id": "C25", "title": "Sequence defaults are in range", "statement": "When sequence attributes are omitted, the defaults satisfy min <= start <= max, fit the data type, and follow the sign of the increment.", "quantifier": "all increments in i64 and all data types", "why_tests_cant": "64-bit arithmetic corner cases.", "anchors": ["src/definition/defaults.rs"]}
{"id": "C26", "title": "The upward range is exactly the path between two versions", "statement": "get_upward_range(from,to) returns the versions after `from` up to `to`, oldest first, each the direct successor of the one before; it fails when `to` does not descend from `from`.", "quantifier": "all histories and all pairs of version names", "why_tests_cant": "Unbounded chains.", "anchors": ["src/history/fsh.rs: get_upward_range"]}
{"id": "C27", "title": "Loading a history does not depend on listing order and rejects branches", "statement": "Loading a history directory gives the same outcome for every directory listing order, and fails whenever two versions have the same predecessor.", "quantifier": "all directories, all listing orders", "why_tests_cant": "read_dir order is unspecified.", "anchors": ["src/history/fsh.rs: from_dir"]}
{"id": "C28", "title": "The current version is the last made version", "statement": "After any sequence of init, stage, reset and make commands, the history's current version is the predecessor of the stage area, i.e. the last made version (init when nothing was made).", "quantifier": "all command sequences", "why_tests_cant": "Unbounded histories.", "anchors": ["src/history/fsh.rs: from_dir, get_current_version"]}
{"id": "C29", "title": "Histories produced by the CLI are linear and replayable", "statement": "After any sequence of init, stage, reset and make (and arbitrary definition edits in between) the history is one chain init -> v1 -> ... -> vn -> stage, loads without error, and replaying all changes succeeds; every version has one up and one down statement per change (init apart), the down statements being in reverse order.", "quantifier": "all command sequences with arbitrary definitions", "why_tests_cant": "Unbounded command sequences.", "anchors": ["src/cmd/{init,stage,reset,make}.rs", "src/history/*.rs"]}
{"id": "C30", "title": "Making a version preserves the computed schema and never rewrites released versions", "statement": "make leaves the snapshot computed at the stage unchanged, moves exactly the staged changes into the new version, empties the stage, and no later stage/reset/make changes an already made version.", "quantifier": "all reachable histories and all following command sequences", "why_tests_cant": "Histories of any length.", "anchors": ["src/cmd/make.rs: make", "src/history/fsh.rs: save_version"]}
{"id": "C31", "title": "Two versions never collide", "statement": "make creates a new version whatever the clock and the given name are; existing versions stay intact and the history stays loadable.", "quantifier": "all clock readings and version names", "why_tests_cant": "Needs two makes in one clock second, or names with special suffixes.", "anchors": ["src/cmd/make.rs: make", "src/history/fsh.rs: get_version_file_path, from_dir"]}
{"id": "C32", "title": "A crash during a command leaves a usable history", "statement": "If the process dies at any point between the file operations of make, stage or reset, the history still loads and no made version or staged change is lost.", "quantifier": "all crash points in all reachable states", "why_tests_cant": "Crash points cannot be enumerated by unit tests.", "anchors": ["src/cmd/make.rs: make", "src/history/fsh.rs: save_version"]}
{"id": "C33", "title": "History traversal terminates", "statement": "Loading a history and computing a range always terminate.", "quantifier": "all directory contents", "why_tests_cant": "Non-termination on cyclic inputs.", "anchors": ["src/history/fsh.rs: from_dir (while let), get_upward_range (loop)"]}
{"id": "C34", "title": "Reset discards exactly the staged changes", "statement": "After reset, the stage is empty, the snapshot at the stage equals the snapshot at the current version, and no other version changed.", "quantifier": "all reachable histories", "why_tests_cant": "Unbounded histories.", "anchors": ["src/cmd/reset.rs", "src/history/version.rs: reset"]}
{"id": "C35", "title": "Staging records the difference to the definitions", "statement": "After a successful stage the replayed snapshot at the stage matches the definitions, so a following status reports no unstaged changes; the stage's previous changes are kept as a prefix.", "quantifier": "all reachable histories and all definitions", "why_tests_cant": "Universal over definitions.", "anchors": ["src/cmd/stage.rs", "src/cmd/status.rs", "src/history/snapshot.rs"]}
{"id": "C36", "title": "Migrations are all-or-nothing", "statement": "If up or down fails or is killed at any point, the database (schema and version table) is exactly as before.", "quantifier": "all histories, all database states, all failing statements and all crash points", "why_tests_cant": "Every crash point.", "anchors": ["src/cmd/up.rs", "src/cmd/down.rs"]}
{"id": "C37", "title": "up applies exactly the pending versions in order", "statement": "A successful up executes exactly the up statements of the versions after the database's current version up to the requested one, oldest first, and records exactly those versions.", "quantifier": "all histories and database states", "why_tests_cant": "Unbounded histories.", "anchors": ["src/cmd/up.rs", "src/history/dbh.rs: save_version"]}
{"id": "C38", "title": "down reverts exactly the versions after the target, newest first", "statement": "A successful down executes exactly the recorded down statements of the versions applied after the target, newest first, and removes exactly those versions from the version table.", "quantifier": "all database states and targets", "why_tests_cant": "Unbounded histories.", "anchors": ["src/cmd/down.rs", "src/history/dbh.rs: get_downward_range, delete_version"]}
{"id": "C39", "title": "up followed by down is a round trip", "statement": "down to the version the database was at before a successful up restores the version table, executes the down statements of exactly the versions that up applied in exactly the reverse order, and restores the schema whenever each down script undoes its up script.", "quantifier": "all histories, database states and statement semantics", "why_tests_cant": "Unbounded.", "anchors": ["src/cmd/up.rs", "src/cmd/down.rs"]}
{"id": "C40", "title": "The database's current version is the last applied one", "statement": "After any sequence of successful or failed up and down commands the reported current version is the end of the recorded chain, and the recorded chain is a path of the file history starting at init.", "quantifier": "all command sequences", "why_tests_cant": "Unbounded; SERIAL order gaps after down.", "anchors": ["src/history/dbh.rs: get_current_version, format_current_version_sql"]}
{"id": "C41", "title": "up is idempotent", "statement": "Running up again right after a successful up applies nothing and leaves the database unchanged.", "quantifier": "all reachable states", "why_tests_cant": "Universal.", "anchors": ["src/cmd/up.rs"]}
{"id": "C42", "title": "down never reverts the initial version", "statement": "No sequence of down commands executes init's down statements or removes init from the version table.", "quantifier": "all states and all targets", "why_tests_cant": "Universal.", "anchors": ["src/cmd/down.rs", "src/history/dbh.rs"]}
{"id": "C43", "title": "The version table stays a chain", "statement": "After any commands every recorded version other than init has its predecessor recorded before it; inserts and deletes never violate the table's foreign key.", "quantifier": "all command sequences", "why_tests_cant": "Unbounded.", "anchors": ["src/history/dbh.rs: format_create_table_sql"]}
{"id": "C44", "title": "Quoted names in generated SQL are unambiguous", "statement": "The quoted (qualified) name written into SQL reads back, under SQL's quoted-identifier rules, as exactly the object's name; different names give different text.", "quantifier": "all names", "why_tests_cant": "Quoting bugs appear on particular characters.", "anchors": ["src/util/sqlfmt.rs", "src/snapshot/changes/schema/*.rs: render_sql"]}
{"id": "C45", "title": "Generated SQL states the column's nullability", "statement": "SQL generated for adding a column, creating a table, or changing nullability makes the column NOT NULL exactly when the definition says so.", "quantifier": "all columns", "why_tests_cant": "Each rendering path must be right for both values.", "anchors": ["src/snapshot/changes/column/add_column_change.rs: render_sql", "src/snapshot/changes/table/create_table_change.rs: render_sql", "src/snapshot/changes/column/alter_column_set_null_change.rs"]}
{"id": "C46", "title": "Generated SQL states the constraint's deferrability", "statement": "SQL generated for adding or altering a constraint specifies exactly its deferrable and initially-deferred attributes.", "quantifier": "all constraints", "why_tests_cant": "Four combinations x four kinds x add/alter.", "anchors": ["src/snapshot/changes/{check,foreignkey,primarykey,unique}/*.rs: render_sql"]}
{"id": "C47", "title": "Different changes give different SQL", "statement": "Two different changes never render to the same statement, so the up script determines the changes.", "quantifier": "all pairs of changes", "why_tests_cant": "Quadratic and infinite.", "anchors": ["src/snapshot/changes/*/*_change.rs: render_sql"]}
{"id": "C48", "title": "Environment expansion", "statement": "Expanding a configuration value replaces each $NAME and ${NAME} by the variable's value (empty when unset), exactly once, and leaves all other text unchanged.", "quantifier": "all strings and environments", "why_tests_cant": "Infinite string space.", "anchors": ["src/util/expand.rs: expand_envvar"]}
{"id": "C49", "title": "The nearest enclosing project is used", "statement": "Project discovery from a directory uses the configuration in the nearest ancestor that has one, and fails only if none has.", "quantifier": "all directory trees", "why_tests_cant": "Unbounded depth.", "anchors": ["src/project/mod.rs: discover_project"]}
{"id": "C50", "title": "init never destroys an existing project", "statement": "Running init inside an existing project changes no file.", "quantifier": "all file-system states", "why_tests_cant": "Universal.", "anchors": ["src/cmd/init.rs"]}
{"id": "C51", "title": "Commands act on the selected profile", "statement": "A command run with a profile reads and writes only that profile's history, definitions and database.", "quantifier": "all configurations and profiles", "why_tests_cant": "Needs several profiles with different directories.", "anchors": ["src/cmd/*.rs", "src/project/mod.rs"]}
{"id": "C52", "title": "Every advertised subcommand works", "statement": "Each subcommand listed in the help is dispatched to an implementation; none aborts the process unconditionally.", "quantifier": "all subcommands", "why_tests_cant": "Dispatch falls through to unreachable!().", "anchors": ["src/main.rs", "src/cmd/sync.rs"]}
{"id": "C53", "title": "Introspection is faithful to the catalogue rows", "statement": "The snapshot built from catalogue rows contains exactly one object per row with the row's attributes, and is well-formed; it fails exactly on duplicate or orphan rows.", "quantifier": "all catalogue contents", "why_tests_cant": "Universal.", "anchors": ["src/introspection/mod.rs"]}
{"id": "C54", "title": "Cloning a database captures all its objects", "statement": "The snapshot cloned from a database contains its views, as well as its tables, sequences, indexes and functions.", "quantifier": "all catalogue contents", "why_tests_cant": "A missing loader is invisible without the object kind.", "anchors": ["src/introspection/mod.rs: introspect", "src/introspection/view.rs"]}
{"id": "C55", "title": "Stored versions are read back unchanged", "statement": "The document stored for a version (file history and version table) decodes to the same name, predecessor, changes, up and down statements.", "quantifier": "all versions and all changes", "why_tests_cant": "30 record types x arbitrary contents.", "anchors": ["src/history/version.rs: Version", "src/snapshot/changes/mod.rs: Change (serde tag/content)", "src/history/dbh.rs: populate_row"]}
{"id": "C56", "title": "Any metadata schema can be configured", "statement": "With any metadata schema name the server accepts, up on a new database creates the metadata schema and applies everything that was made, unless a statement fails.", "quantifier": "all schema names, all histories the commands produce, all new databases", "why_tests_cant": "Tests use one schema name; whether the name looked up is the name created depends on how the server reads identifiers, for every name.", "anchors": ["src/history/dbh.rs: ensure_initialized, create_meta_schema", "src/cmd/up.rs"]}
{"id": "C57", "title": "Every version that can be made can be applied", "statement": "Every version that make accepts can be recorded in the version table, so that up can apply it.", "quantifier": "all histories the commands produce, all version names", "why_tests_cant": "Tests make versions with a few short names; the claim is about every name make accepts.", "anchors": ["src/cmd/make.rs", "src/history/dbh.rs: format_create_table_sql, save_version"]}
{"id": "C58", "title": "Every text can be written in the configuration", "statement": "For every text there is a configuration value that expands to it, whatever the environment is (a dollar sign can be escaped).", "quantifier": "all texts", "why_tests_cant": "Infinite string space; the property quantifies over values that cannot be written.", "anchors": ["src/util/expand.rs: expand_envvar"]}
{"id": "C59", "title": "Environment variables work in every field of a profile", "statement": "In every field of a profile - database URL, history, definitions, metadata schema - environment variables are expanded.", "quantifier": "all configurations and environments", "why_tests_cant": "Universal over configurations.", "anchors": ["src/project/mod.rs: load_project_from_str"]}
{"id": "C60", "title": "The exit status tells whether the command failed", "statement": "The process ends with status 0 if and only if the command succeeded.", "quantifier": "all commands, files and databases", "why_tests_cant": "Universal; needs every failing state.", "anchors": ["src/main.rs: main"]}
{"id": "C61", "title": "Every error is displayed", "statement": "A command that fails with an error displays that error; displaying it never panics.", "quantifier": "all commands and errors", "why_tests_cant": "Universal over error values.", "anchors": ["src/main.rs: main", "src/snapshot/error.rs: Display"]}
{"id": "C62", "title": "init leaves a project that is ready for use", "statement": "After init in a directory without a project, the project is found with the profile database, its history is a valid one whose snapshot is what the definitions file was written from, and nothing else changed.", "quantifier": "all file systems and directories", "why_tests_cant": "Universal over file systems.", "anchors": ["src/cmd/init.rs", "src/project/mod.rs: initialize_project"]}
{"id": "C63", "title": "status tells the truth", "statement": "status changes nothing; it reports the staged changes of the history, the changes that stage would add (none if and only if definitions and staged history agree), and the newest version recorded in the database.", "quantifier": "all projects with a valid history", "why_tests_cant": "Universal over histories, definitions and databases.", "anchors": ["src/cmd/status.rs: status"]}
{"id": "C64", "title": "The history and the database of a project stay consistent", "statement": "In any sequence of init, stage, reset, make, up, down and status, run from anywhere in the project while the definitions are edited in between, the history directory stays valid and the version table records a path in it.", "quantifier": "all sequences of commands and edits", "why_tests_cant": "Unbounded sequences of commands on files and databases.", "anchors": ["src/cmd/*.rs", "src/history/fsh.rs", "src/history/dbh.rs"]}
{"id": "C65", "title": "Every database can be cloned", "statement": "Introspection of a PostgreSQL database succeeds, whatever objects its schemas have.", "quantifier": "all catalogue contents that PostgreSQL can maintain, all choices of schemas, all row orders", "why_tests_cant": "A test has the objects its author thought of; the failures are overloaded functions, foreign keys to bare unique indexes, columns of unreadable tables and type modifiers of types that the query does not list.", "anchors": ["src/introspection/mod.rs", "src/introspection/*.sql"]}
{"id": "C66", "title": "Cloned objects have the attributes of the originals", "statement": "Every attribute that the snapshot can express (columns of a table, keys of an index, pairing and match type of a foreign key) is in the snapshot as it is in the database.", "quantifier": "all catalogue contents that PostgreSQL can maintain, all choices of schemas, all row orders", "why_tests_cant": "A lost attribute is invisible unless the test database has an object on which it is not the default.", "anchors": ["src/introspection/mod.rs", "src/introspection/*.sql"]}
{"id": "C67", "title": "A new project is clean", "statement": "Right after init, status reports nothing staged and nothing to stage, and stage changes nothing.", "quantifier": "all directories without a project, all states of the database servers, all hash and listing orders of the later processes", "why_tests_cant": "The two sides come from different code (the history replays the init version, the definitions are a saved document that is loaded), so a test shows only that they agree for one platform's orders.", "anchors": ["src/cmd/init.rs", "src/cmd/status.rs", "src/cmd/stage.rs"]}
{"id": "C68", "title": "What is staged is no longer to be staged", "statement": "After stage, status reports the former stage extended with the differences, and nothing left to stage; a second stage changes nothing.", "quantifier": "all projects reached by any sequence of commands and edits of the definitions, all hash orders, from any directory in the project", "why_tests_cant": "A test stages the objects its author thought of; the exception is one attribute of one kind of object.", "anchors": ["src/cmd/stage.rs", "src/cmd/status.rs", "src/history/mod.rs"]}
{"id": "C69", "title": "A full cycle ends with nothing left to do", "statement": "After stage, make and up, the database is on the new version, its user objects have seen exactly the statements of the staged changes, nothing is staged and nothing is left to stage.", "quantifier": "all projects reached by any sequence of commands and edits, all names of versions, all databases, all hash orders", "why_tests_cant": "Four commands in four processes with independent orders; a test runs one.", "anchors": ["src/cmd/stage.rs", "src/cmd/make.rs", "src/cmd/up.rs", "src/cmd/status.rs"]}
{"id": "C70", "title": "The definitions that clone writes are those of the database", "statement": "After clone, loading the definitions gives the snapshot of the database that was introspected.", "quantifier": "all databases, all projects, all hash orders", "why_tests_cant": "The round trip fails only for particular attributes (increments, index methods, odd names), which a test database need not have.", "anchors": ["src/cmd/clone.rs", "src/definition/mod.rs", "src/introspection/mod.rs"]}
{"id": "C71", "title": "A column expression has one reading", "statement": "The expression of a column is read as a type without '=' and '!', a '!' or none, and a default after '=' or none, each without the white space at its ends; no expression has two such readings, the one that exists is what is read, and an expression without one is rejected.", "quantifier": "all texts", "why_tests_cant": "The regular expression is ambiguous about white space and backtracks; that no choice of the matcher changes the result is a statement about all texts.", "anchors": ["src/definition/ddl/column.rs:35-48"]}
{"id": "C72", "title": "A document is loaded as what it means", "statement": "Every document is loaded as the objects that its keys and values describe: the kind of a key is the longest keyword it begins with, the last value of a repeated attribute counts, a reference is to the schema it names or to that of the table, omitted attributes have their defaults, a schema may come in pieces without common objects. A document has at most one such meaning; a document without one is rejected or aborts the program, and it is known which.", "quantifier": "all YAML documents (as trees), all iteration orders", "why_tests_cant": "It is a complete specification of the loader over all trees of any depth; tests show single documents.", "anchors": ["src/definition/mod.rs:53-70", "src/definition/base/yaml.rs:44-137", "src/definition/ddl/*.rs", "src/definition/defaults.rs"]}
{"id": "C73", "title": "Mistakes in the definitions are reported", "statement": "A rejected schema is explained: the error lists, in the order of the document, every entry that means nothing (with the wrong attributes, what was expected of them, and what is missing), lists nothing else, and the displayed text has a line for each of them that names the entry and shows where it is.", "quantifier": "all schema definitions (trees of any size), all documents", "why_tests_cant": "Completeness of a report is about every combination of mistakes in a tree of any size; tests show reports of single mistakes.", "anchors": ["src/definition/ddl/error.rs:3-136", "src/definition/ddl/schema.rs:23-60", "src/definition/ddl/table.rs:16-42", "src/definition/ddl/index.rs:15-60", "src/definition/ddl/coerce.rs:4-62"]}
{"id": "C74", "title": "Concurrent ups apply each version once", "statement": "When any number of `up` commands run on one database at the same time, started from directories of one project and interleaved, failing and killed in any way, the recorded versions are always a beginning of the project's chain that contains the one before, and the statements that took effect are exactly the up scripts of the versions in between, each once, in order.", "quantifier": "all projects, all starting points, all sets of commands, all interleavings, failures and kills", "why_tests_cant": "Races between processes depend on the schedule; tests exercise a few schedules of one or two processes.", "anchors": ["src/cmd/up.rs:9-54", "src/history/dbh.rs:20-38", "src/history/dbh.rs:65-72", "src/history/dbh.rs:104-124", "src/history/dbh.rs:160-182"]}
{"id": "C75", "title": "An up that succeeded has applied its target", "statement": "An `up` that ends successfully while other `up`s run has its target version recorded in the database at the end, whoever applied it.", "quantifier": "all projects, all sets of commands, all interleavings", "why_tests_cant": "A success reported by mistake needs a particular interleaving.", "anchors": ["src/cmd/up.rs:24-54", "src/history/dbh.rs:65-72"]}
{"id": "C76", "title": "Concurrent migrations keep the version table a chain", "statement": "After any mixture of `up`s and `down`s that run at the same time, the version table holds init and the first versions of the project's chain, each once, without gaps.", "quantifier": "all projects, all mixtures of commands, all interleavings, failures and kills", "why_tests_cant": "Quantifies over interleavings of any length.", "anchors": ["src/cmd/up.rs:9-54", "src/cmd/down.rs:5-52", "src/history/dbh.rs:160-193"]}
{"id": "C77", "title": "Concurrent migrations do not block each other for ever", "statement": "From every state that commands running at the same time can reach, all of them can come to an end without any being killed.", "quantifier": "all reachable states of all interleavings", "why_tests_cant": "Deadlock freedom is a statement about every reachable state.", "anchors": ["src/cmd/up.rs:9-54", "src/cmd/down.rs:5-52", "src/history/dbh.rs:160-193"]}
{"id": "C78", "title": "Concurrent downs revert each version once, and the current version stays readable", "statement": "When several commands, some of them `down`, run at the same time, each version is reverted at most once, and the version read as current afterwards is the last of the chain, so that later commands work.", "quantifier": "all projects, all mixtures of commands, all interleavings", "why_tests_cant": "The violations need a particular interleaving of two or three processes.", "anchors": ["src/cmd/down.rs:5-52", "src/history/dbh.rs:40-50", "src/history/dbh.rs:65-102", "src/history/dbh.rs:177-193"]}
{"id": "C79", "title": "A migration prints what it does", "statement": "What `up` and `down` print is the beginning of the account of the migration: current version, target, and for each version in order its name and then its statements; all of it if the command succeeds. The statements printed are the statements executed, except that the last one executed may not be printed yet. Printing does not change what is done.", "quantifier": "all directories, versions, database states, statements, failures and kills at every point", "why_tests_cant": "Quantifies over every path, every script and every point of failure.", "anchors": ["src/cmd/up.rs:9-54", "src/cmd/down.rs:5-52"]}
{"id": "C80", "title": "The output of a migration shows whether it took effect", "statement": "The text that `up` or `down` prints tells a migration that took effect from one that did not.", "quantifier": "all databases and servers", "why_tests_cant": "The failure needs a server that refuses the COMMIT.", "anchors": ["src/cmd/up.rs:9-54", "src/cmd/down.rs:5-52", "src/main.rs:60-98"]}
{"id": "C81", "title": "make announces exactly the version it makes", "statement": "`make` prints `Made version: n` exactly if afterwards version n exists, with what was staged, and the stage is empty.", "quantifier": "all history directories, clocks, names and points of failure", "why_tests_cant": "Quantifies over failures between printing and writing.", "anchors": ["src/cmd/make.rs:8-34"]}
{"id": "C82", "title": "stage lists exactly the changes it stages", "statement": "The changes that `stage` lists are the changes that it adds to the stage, in order, with the statements that it adds to the script.", "quantifier": "all reachable histories, definitions, hash orders and points of failure", "why_tests_cant": "Quantifies over all pairs of snapshots and all hash orders.", "anchors": ["src/cmd/stage.rs:8-44"]}
{"id": "C83", "title": "status prints the whole report", "statement": "In a project with a readable history and readable definitions `status` never fails, changes nothing and prints the current version, the staged changes and the changes not staged; and it prints `No changes.` exactly if nothing is staged and the definitions describe the staged snapshot.", "quantifier": "all worlds, profiles, databases and hash orders", "why_tests_cant": "Quantifies over all projects and database states.", "anchors": ["src/cmd/status.rs:15-58"]}
{"id": "C84", "title": "The statement generated for a change says what the change means", "statement": "PostgreSQL reads the text generated for a change as one statement, and this statement is the one that the change stands for: the same object, with the same attributes.", "quantifier": "all changes of all 30 kinds with well-formed names and texts", "why_tests_cant": "Quantifies over all names, types, expressions and attributes; needs a reader of SQL, and the tests only compare texts.", "anchors": ["src/util/sqlfmt.rs:1-34", "src/snapshot/changes/table/create_table_change.rs:65-80", "src/snapshot/changes/column/add_column_change.rs:45-64", "src/snapshot/changes/foreignkey/add_foreign_key_change.rs:65-90", "src/snapshot/changes/function/create_functon_change.rs"]}
{"id": "C85", "title": "Executing the statement of a change does to the database what the change does to the snapshot", "statement": "If a snapshot describes a database, a change applies to the snapshot, and its statement succeeds on the database, then the new snapshot describes the new database.", "quantifier": "all changes, snapshots and databases", "why_tests_cant": "Quantifies over all databases that a snapshot describes; no test has a database.", "anchors": ["src/snapshot/changes", "src/util/sqlfmt.rs:1-34"]}
{"id": "C86", "title": "After up the database is the one that the snapshot of the version describes", "statement": "If the database is the one that the snapshot of its current version describes and up succeeds, the database is the one that the snapshot of the target version describes.", "quantifier": "all histories that the commands can produce, versions and databases", "why_tests_cant": "Quantifies over all histories and databases; needs the effect of all statements of all versions in a row.", "anchors": ["src/cmd/up.rs:1-54", "src/history/dbh.rs:1-249", "src/history/snapshot.rs:1-21", "src/history/version.rs:1-60"]}
{"id": "C87", "title": "After down the database is the one that the snapshot of the version describes", "statement": "If the database is the one that the snapshot of its current version describes and down succeeds, the database is the one that the snapshot of the target version describes.", "quantifier": "all histories that the commands can produce, versions and databases", "why_tests_cant": "Quantifies over all histories and databases; needs the effect of the statements that were stored for going back.", "anchors": ["src/cmd/down.rs:1-52", "src/history/dbh.rs:1-249", "src/history/version.rs:1-60"]}
{"id": "C88", "title": "stage, make and up bring the database to what the definitions say", "statement": "If the database is as the snapshot of its current version describes it, then after stage, make and up have succeeded it is as the definitions describe it.", "quantifier": "all projects, definitions, databases and hash orders", "why_tests_cant": "Quantifies over all definitions and databases, and composes every part of the program.", "anchors": ["src/cmd/stage.rs:1-44", "src/cmd/make.rs:1-34", "src/cmd/up.rs:1-54", "src/definition/mod.rs", "src/snapshot/diff.rs"]}
{"id": "C89", "title": "A change that applies to the snapshot is carried out in the database", "statement": "If the database is the one that the snapshot describes and a change applies to the snapshot, PostgreSQL carries out the statement of the change; so the differences between two definitions can be migrated to.", "quantifier": "all changes, snapshots, databases and hash orders", "why_tests_cant": "Quantifies over all snapshots and changes: the snapshot accepts by its own rules (names per table, no uniqueness across relations) what PostgreSQL checks by others; the order of the statements depends on hash maps.", "anchors": ["src/snapshot/changes/mod.rs", "src/snapshot/diff.rs", "src/history/dbh.rs:1-249"]}
{"id": "C90", "title": "The definitions decide whether every staged statement says its change", "statement": "If the names and texts of two snapshots are well-formed, so are those of every change between them; and every statement of the difference says what its change means exactly if the difference creates no function or foreign key, adds no column to a table, creates no NOT NULL column, no key or index without columns, no deferrable check and nothing initially deferred but not deferrable, and creates or drops only schemas with simple names. If it does any of these, the database is out of step with the snapshot after some statement.", "quantifier": "all pairs of snapshots, databases and hash orders", "why_tests_cant": "Quantifies over all pairs of definitions; each kind of object is compared by its own rules, and a statement may well be valid SQL and mean something else.", "anchors": ["src/snapshot/diff.rs:20-489", "src/snapshot/changes/mod.rs", "src/snapshot/types/mod.rs"]}
{"id": "C91", "title": "Renaming a primary key or changing only its deferrability is never carried out", "statement": "If between two snapshots the primary key of a table gets another name, or a key or a check changes only in when it is checked, PostgreSQL refuses one of the staged statements, whatever else differs and in whatever order the hash maps are visited.", "quantifier": "all pairs of snapshots with that difference, databases and hash orders", "why_tests_cant": "Quantifies over everything else that differs, and over the orders of the hash maps: no other statement of the difference can make room for the refused one.", "anchors": ["src/snapshot/diff.rs:157-200", "src/snapshot/diff.rs:277-321", "src/snapshot/changes/mod.rs"]}
{"id": "C92", "title": "Which migrations end with NOT NULL as the definitions say", "statement": "If the staged changes say what they mean and have no effects besides, apart from NOT NULL, they are carried out exactly if they are acceptable, and the database that they lead to is the one that the definitions describe exactly if: no old column that may be null becomes part of a new primary key; in a new table the NOT NULL columns are exactly those of its primary key; and a column added to an old table is NOT NULL and part of a new primary key. Otherwise stage, make and up all succeed and the database differs from the definitions in NOT NULL.", "quantifier": "all snapshots, definitions, databases that a snapshot describes, hash orders, and sessions of stage, make and up", "why_tests_cant": "The end depends on how statements make up for each other (CREATE TABLE leaves out NOT NULL, ADD PRIMARY KEY sets it, ADD COLUMN inverts it), in every order of the hash maps; tests compare texts of single statements.", "anchors": ["src/snapshot/changes/table/create_table_change.rs:60-90", "src/snapshot/changes/column/add_column_change.rs:45-65", "src/snapshot/changes/column/alter_column_set_null_change.rs:33-50", "src/snapshot/diff.rs"]}
{"id": "C93", "title": "Which definitions that only add are carried out", "statement": "If the definitions keep everything that the snapshot has and only add schemas, tables, columns, keys, checks, indexes, views and sequences that can be said in SQL, then the statements for the difference are carried out, whatever the order in which hash maps are visited, exactly if: names of keys are not used otherwise in their schema; no table has two primary keys; the columns of keys exist, each once; new sequences have values that fit; and new schemas do not have the names of system schemas. The database then is the one that the definitions describe exactly if NOT NULL is kept as in C92. Nothing is assumed about the statements, their order, or the snapshots in between.", "quantifier": "all pairs of well-formed snapshots of which the second only adds, all databases that the first describes, all hash orders, and sessions of stage, make and up", "why_tests_cant": "Whether a key finds its columns and its name free depends on all the statements before it, in every order of the hash maps, and on the server.", "anchors": ["src/snapshot/diff.rs", "src/snapshot/changes/primarykey/add_primary_key_change.rs", "src/snapshot/changes/unique/add_unique_change.rs", "src/snapshot/changes/sequence/create_sequence_change.rs"]}
{"id": "C94", "title": "Definitions that only add can be taken back", "statement": "If the definitions only add to a snapshot (C93), the snapshot refers only to what it has, no new column of an old table is used in an old check or in an index, and no old foreign key refers to the columns of a new key, then after the server has carried out the difference it also carries out what down does, whatever the order in which hash maps were visited, and the database is again the one that the snapshot describes exactly if no old column that may be null was part of a new primary key. down over any number of versions of this kind leads to the database that the older snapshot describes. Without the condition on new columns the way back may be refused although the snapshots go back: a new index on a new column is dropped with the column.", "quantifier": "all pairs of well-formed snapshots of which the second only adds, all databases that the first describes, all hash orders, all histories of such versions", "why_tests_cant": "The way back is computed from the snapshots and refused or not by the server, which drops more than the snapshot says; this depends on every statement in between and on the orders of the hash maps.", "anchors": ["src/snapshot/diff.rs", "src/cmd/stage.rs:28-40", "src/snapshot/changes/mod.rs:48-52", "src/snapshot/changes/column/add_column_change.rs:62-70", "src/history/dbh.rs"]}
{"id": "C95", "title": "An index is created before the columns that come with it", "statement": "If the definitions add an index to a schema and a column to a table of that schema that is there already, the statement that creates the index comes before every statement that adds a column to that table, whatever the order in which hash maps are visited. When it is reached, neither the snapshot nor the database has the column, so an index on it is refused by PostgreSQL although the changes apply to the snapshot.", "quantifier": "all pairs of well-formed snapshots, new indexes and new columns, hash orders, and databases that the snapshot describes", "why_tests_cant": "The order of the statements depends on the order of hash maps; that no order helps is a statement about all of them and about everything else that differs.", "anchors": ["src/snapshot/diff.rs:59-91", "src/snapshot/diff.rs:164-198", "src/snapshot/diff.rs:442-446", "src/snapshot/changes/index/create_index_change.rs:33-43"]}
