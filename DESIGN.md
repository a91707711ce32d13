# Formal model of podo: design

The model is written in Rocq (Coq 8.16.1) under `rocq/theories`.  The Rust code in `/repo`
is read as text; nothing is extracted from it and nothing is run.  `properties.jsonl` lists
the properties, `MANIFEST.json` the theorems for each, `seeded/LOG.jsonl` the wrong programs
against which the theorems were tested.

## 1. Modelling conventions

* **Strings** are `list N` of Unicode code points (`str`).  ASCII literals are written
  `L "abc"`.  Byte offsets (Rust slices) are computed with the UTF-8 length of each
  code point; slicing off a char boundary is a panic.
* **HashMap** is std++ `gmap str _` together with an *iteration-order oracle*
  (`iter_order`): a parameter that, for each map, yields some permutation of its entries.
  Every theorem quantifies over the oracle.  A refutation may pick one.
* **Result / panic**: `result` (`Ok | Err`) for `Result`; `outcome` (`Done | Fail |
  Panic`) in the definitions; `exec` (`Ret | Raise | Abort | Hang | Killed`) for
  commands: a value, an error, a panic, divergence, a crash.
* **`&mut` arguments**: the function returns the final value of the borrowed snapshot
  *and* the result (`mut S A`), so partial mutation before an error is visible.
* **Loops** over lists are structural recursion; `while`/`loop` take fuel that is shown to
  suffice, and report exhaustion as `Hang`, which is shown to mean divergence.
* **External world** (file system, PostgreSQL, clock, environment) is a state; what other
  libraries compute (YAML and JSON text, hash orders, the planner's row orders) is a
  parameter over which the theorems quantify.
* **Crashes**: a command is a sequence of operations on its state (`istep`); a schedule says
  after how many of them the process dies (`Killed`).

## 2. Files

Model (no proofs; every definition cites the lines it models):

| file | models |
|---|---|
| `Base.v` | strings, results, iteration orders (no code of the repository) |
| `Types.v` | `src/snapshot/types`, `src/snapshot/error.rs` |
| `Changes.v` | `src/snapshot/changes`: the 30 kinds of change, apply and revert |
| `Diff.v` | `src/snapshot/diff.rs` |
| `Load.v` | `src/definition/mod.rs`: reading a directory of definitions |
| `Text.v`, `Node.v`, `Yaml.v`, `Ddl.v` | `src/definition`: nodes, YAML mappings, definitions of all objects, defaults |
| `Display.v` | `src/definition/ddl/error.rs`: the text of an error |
| `Regex.v` | regular expressions with leftmost-first matching, for the two of `column.rs` and `expand.rs` |
| `Sql.v` | `src/util/sqlfmt.rs`, `render_sql` of all changes |
| `History.v` | `src/history/{fsh,version,snapshot}.rs`, `src/cmd`: version files, chains, `init`, `stage`, `reset`, `make`, `status` |
| `Dbh.v` | `src/history/dbh.rs`, `src/cmd/{up,down}.rs`: the version table and `up`, `down` |
| `Output.v` | `src/cmd/{up,down,make,stage,status}.rs` again, with the lines they print |
| `Concurrent.v` | `src/history/dbh.rs`, `src/cmd/{up,down}.rs` again, as programs that a server interleaves: several commands at once |
| `Expand.v` | `src/util/expand.rs`: environment expansion |
| `Project.v` | `src/project/mod.rs`: profiles, configuration, discovery of the project |
| `Definitions.v` | `src/definition/mod.rs` over the file system: the directory of definitions read from texts, the text of a saved snapshot |
| `World.v` | `src/cmd`, `src/main.rs`: the subcommands and `main`, over a world of files, databases, clock, environment |
| `Serde.v` | the derived serde instances of `Version` and of the 30 changes |
| `Catalog.v` | the ten catalogue queries `src/introspection/*.sql` as relational algebra over an abstract PostgreSQL catalogue |
| `Introspect.v` | `src/introspection/*.rs` |

Specifications (`Spec*.v`): small, independent notions in terms of which the theorems are
stated, e.g. `SpecSnapshot` (what a snapshot contains), `SpecChange` (what a change names
and inverts), `SpecMerge`, `SpecRegex` (what an expression matches), `SpecDefinition`, `SpecSql` (a reader of quoted SQL names and
statements), `SpecHistory`, `SpecDb`, `SpecConcurrent`, `SpecOutput`, `SpecExpand`, `SpecProject`, `SpecSession`,
`SpecSerde`, `SpecIntrospect`, `SpecCatalog` (what the catalogue shows), `SpecMeaning` (what a
definition document means, as relations), `SpecReport` (the report of the mistakes of a schema:
tables of the attributes that objects have), `SpecLex`, `SpecStatement`, `SpecServer`,
`SpecAccept`, `SpecSpelled`, `SpecObey` (PostgreSQL: its tokens, its reading of the statements that are generated,
their effect, the database that a snapshot describes, and which changes it carries out).

`Props*.v` contain the property theorems and nothing else, each closed by one lemma and
followed by `Print Assumptions`; an `Example` shows that the hypotheses can be met.
The remaining files contain the lemmas and the example values.

## 3. How each property is proved

| id | how |
|---|---|
| C01-C06 | exact final state of the comparison for every hash order, by simulation table < schema < database; exact condition; refutations |
| C07, C08 | inverse of each change up to column order; composition over the recorded list; C08 backwards: what no revert can bring back (constraints of a dropped table, owners, indexes whose table comes later) and a hash order that shows it |
| C09-C12 | case analysis over the 30 kinds; invariant by induction over lists of changes |
| C13, C14 | merge as union of disjoint maps; permutations of listings |
| C15, C71 | the backtracking matcher agrees with a reader that does not go back, for all texts; exact set of triples that come back; uniqueness of the reading |
| C16-C24 | codec per object, then by induction over trees; exact conditions; refutations.  C22 backwards: names read are trimmed names, so a snapshot that comes back has none to trim, hence each object comes back |
| C72, C23 | each loop of the parsers keeps the last value of each attribute; the loader is equivalent to the relations of `SpecMeaning`, in both directions, by induction over trees; the same for aborting; a directory by induction over its files (`load_texts_aborts`) |
| C73 | every loop collects, for each node, the mistake that `SpecReport` gives it; the text by induction over the tree of errors |
| C25 | arithmetic over all integers in range |
| C26, C27, C33 | induction over chains of predecessors; exact condition for divergence |
| C28-C31, C34, C35 | invariant of the history directory, by induction over command sequences |
| C32 | every prefix of the file operations of a command |
| C36-C43 | state machine with a transaction; statements are an arbitrary partial function on the rest of the database |
| C44-C47 | an independent reader of the generated SQL; exact conditions; refutations |
| C48, C58, C59 | segmentation of the value |
| C49-C52, C60-C63 | commands over the world |
| C64 | refinement: a project simulates an abstract session |
| C67-C69 | the refinement of C64, composed over consecutive commands; exact conditions; refutations |
| C70 | clone writes what C22 saves; the loader of the directory reads it back; exact condition; refutation |
| C53 | the rows describe objects; the snapshot holds exactly these |
| C54, C65, C66 | catalogue -> rows -> snapshot; exact condition for success; refutations |
| C55 | codec over serde's data model |
| C56, C57 | exact limits of names |
| C74-C78 | invariants of the server over all interleavings: at most one transaction has changed the table; protocol of the programs by stages; the programs are proved to be the commands of `Dbh.v`, and every run there to be a run of the server (`ConcurrentRefine`, `ConcurrentAlone`); schedules for the refutations |
| C79-C83 | the printing commands are proved to do what the commands above do, with kills before every line (`mirrors`); then an invariant over the loops: what is printed against what is executed |
| C84 | the tokens of each generated text, then the grammar on them; exact condition (`sayable`) by cases over the 30 kinds |
| C85 | the effect of the statement against the effect of the change, in both directions; exact condition (`plain_effect`) |
| C86-C88 | induction over the changes of the versions on the way; composed with the theorems on up, down (C36-C43) and on consecutive commands (C67-C69) |
| C89 | the conditions that PostgreSQL checks against conditions on the snapshot, by cases over the 30 kinds (`accepted`); refutations by computation |
| C90 | every change of a diff lies in the part of one object (`diff_forall`), the parts by cases; the condition on the two snapshots is `difference_sayable` (`SpecSpelled`) |
| C91 | no statement creates a constraint of that name or changes its kind (`perform_constraints`), so the old key is there when the new one is added, or not there when it is dropped |
| C92 | the database is compared with the snapshot after its NOT NULL flags are replaced (`renull`): that is in step after every statement; then the flags that the changes of a diff leave (`null_after`) against a condition on the two snapshots (`nulls_kept`) |
| C93 | all changes of such a diff create something that the definitions have (`added`), and what is there stays (`keeps`), so every snapshot on the way lies below the definitions; the columns of a table come before its keys (`phase`); conversely what was accepted fits (`keys_fit` is an invariant) |
| C94 | for such a diff the reverts are the opposites (`steps_back`); every snapshot on the way back lies between the old one and the definitions, and what is dropped is not used by what is left (`back_ok`); NOT NULL of old columns by C92 on the way there and back (`old_nulls_iff`); histories by induction over `additions` |
| C95 | the creations of indexes and the additions of columns in a diff, ranked and filtered part by part (`diff_ranks`); no other change gives a table a column (`no_columns_brought`, by cases over the 30 kinds); the server by C92's `runs_null`; the refusal from that, C93's `adds_carried_out` and the reading of CREATE INDEX (`read_create_index_text`) |

## 4. Trusted base

* The kernel of Coq 8.16.1, and its virtual machine (`vm_compute`, used for examples and
  refutations).
* `Print Assumptions` says "Closed under the global context" for every theorem in every
  `Props*.v`: there is no axiom, neither of our own nor from a library.  std++ supplies finite
  maps and lists.
* The reading of the Rust source into Gallina.

What the model leaves to parameters or assumptions:

* **YAML and JSON text.**  Definition documents are modelled as trees of serde_yaml values;
  version files and configuration as serde data.  Printing and parsing the text is done by
  serde_yaml/serde_json, which are parameters; C55, C62-C64 assume that they read back what
  they wrote.  The leniency of serde_yaml (scalars as strings, the sequence form of structs,
  integers out of the range of i64) is not modelled. The messages for malformed keys and values
  (Rust's `Debug` of a YAML value) are a parameter of `Display.v`.
* **The regular expressions** for columns and for environment references are matched by a
  backtracking matcher (`Regex.v`), which states the leftmost-first semantics that the regex
  crate documents.  It finds a match exactly if the expression has one (`RegexLemmas`).  That
  the automata of the crate implement this semantics, and the characters beyond ASCII that
  `\w` contains, are not modelled.
* **PostgreSQL, migrations.**  Script statements are an arbitrary partial function on the
  database outside the version table: they do not touch the version table and do not end the
  transaction.  COMMIT may be refused, depending on the state the statements led to (deferred
  constraints); a deferred trigger that changes data is not modelled.  Connecting and beginning
  a transaction cannot fail; nobody else uses the database (except in C74-C78).  A transaction that is not committed has no effect except on
  sequences.
* **PostgreSQL, several migrations at once** (`Concurrent.v`): read committed, the default.  A
  statement sees what is committed when it starts and what its own transaction did.  Inserting
  a row waits for a transaction that inserted or deleted the same name, or deletes the row it
  refers to, and deleting waits for one that refers to the row; then the constraints are
  checked.  A number is drawn from the sequence before the row is placed.  Creating the schema
  waits for a transaction that creates it.  Any operation may fail at any time (this covers
  deadlock detection and serialisation of what the scripts do).  Of script statements only the
  order is kept: locks that they take, and what they read, are not modelled, so a script may be
  executed in more interleavings than PostgreSQL would allow.  The history directory does not
  change while a command runs.
* **PostgreSQL, catalogue.**  The catalogue is what the ten queries read.  `proper` and
  `indexed` (SpecCatalog) state facts that PostgreSQL maintains.  The order of rows and of
  array_agg without ORDER BY, and the output functions of type modifiers, are parameters
  (`planner`).  Errors of the queries themselves, the ranges of i16/i64 and names that are
  not UTF-8 are not modelled.
* **PostgreSQL, effect of the statements** (C84-C95).  `SpecLex`, `SpecStatement` and `SpecServer`
  specify the part of PostgreSQL's SQL that the generated statements use: tokens with quoted
  names, strings, dollar quotes and comments, folding and clipping of names, the grammar of each
  statement, what each does to schemas, tables, columns, constraints, indexes, sequences, views and
  functions.  They were written after PostgreSQL's manual, and are trusted.  Types, defaults,
  expressions and queries are sequences of tokens and are compared as such; data, privileges and
  the order of columns are left out.  `perform` gives no result where the effect depends on
  something that is left out, so the theorems do not speak about these statements.  Theorems are
  about every server that is `obedient`: it accepts no text that is not a statement, and where the
  effect is specified that is what happens; it may refuse more.  `C95_index_refused_partial` assumes
  besides that it refuses an index on a name that is not a column of the table
  (`indexes_checked`).
* **File system.**  Paths are lists of names; `..` is resolved lexically; no symbolic links,
  permissions, name length limits or concurrent changes.  A write is two operations (create
  or truncate, write); a crash happens between operations; there is no reordering.
* **Definitions.v, World.v**: the commands load and save definitions through the modelled
  loader, and clone through the modelled introspection.  Parameters are: serde_yaml between a
  text and a YAML mapping (`dc_read`, `dc_print`) and between a text and a `Version`; the order
  of listings and of hash maps; the catalogue of a database as a function of its state
  (`catalogue_of`).  That serde_yaml reads back what it wrote (`reads_back`, `codec`) is a
  hypothesis where it is used.
* **Not modelled**: clap's parsing of arguments, the codes of the terminal colours
  (parameters of `Output.v`), the text printed by `init`, `reset` and `clone`, the format of
  the clock (a parameter), tokio, connection strings and TLS, `src/introspection/view.*`
  (never called).

## 5. What the proofs show about the code

Every entry has a theorem (named `..._refuted` or an exact characterisation).

* Comparison: attributes of indexes other than the keys are not compared; created sequences
  lose their owner, and so are staged again by every `stage`; an index on a new table is created before the table for some hash orders.
* Reverts: a dropped table comes back without constraints, a dropped schema empty.
* Rename: renaming a column onto a taken name destroys a column before the error.
* SQL: `"` in names is not escaped and schema names are not quoted; ADD COLUMN and CREATE TABLE
  state the wrong nullability; deferrability is wrong in several statements.
* What PostgreSQL does with it: no column is ever created NOT NULL by CREATE TABLE, and ADD COLUMN
  makes exactly the columns NOT NULL that may be null, so that a new table ends as defined only if
  its NOT NULL columns are those of its primary key (C92); the statements for foreign keys (MATCH, ON
  UPDATE and ON DELETE are missing) and for functions are syntax errors, so that a version with
  one can never be applied; ALTER CONSTRAINT is refused for everything but foreign keys; checks
  cannot be deferrable; schema names with capitals are folded.  A primary key makes its columns NOT
  NULL and dropping a column or a table drops keys, indexes and sequences, neither of which the
  snapshot follows; a dropped column comes back with the wrong nullability.  When the name of a
  primary key changes, the new key is added while the old one is there, which is refused; when the
  name of a key moves to another table, whether it is refused depends on the hash order.
* Definitions: names with keyword prefixes or outer blanks, dotted table names, empty column
  lists, sequences with increments, indexes with methods do not come back; several documents
  make the loader panic.
* History: circular predecessors loop forever; names that end in `.yaml` or contain `/`, or two
  versions with the same name in one second, overwrite each other; a crash in `stage`, `reset`
  or `make` leaves a history that does not load.
* Database: `up` to the stage, which is made later, records a version that does not exist;
  version names above 128 characters cannot be applied; the metadata schema name is folded.
* Several migrations at once: `up`s are safe among themselves; two `down`s that overlap execute
  the script for going back twice; `up` and `down` that overlap can leave numbers in the wrong
  order, after which neither works; `up`s from directories that disagree fork the version table.
* Output: a migration whose COMMIT is refused prints the same as one that succeeded; `make`
  announces a version before saving it, `stage` lists changes before applying and saving them.
* Command line: `up`, `status` (and `clone`) ignore the directories of the selected profile;
  `clone`, `print` and `sync` always panic; errors end in status 0; displaying an error of a
  snapshot panics; `init` overwrites a project whose configuration cannot be read; the metadata
  schema is not expanded; a literal `$NAME` cannot be written.
* Introspection: views are never loaded; partitioned tables come without columns; MATCH SIMPLE
  becomes NONE; the pairing of the columns of composite foreign keys is lost; an index that a
  foreign key uses is lost; an index with columns and expressions keeps the expressions only;
  overloaded functions, foreign keys to bare unique indexes and modifiers of unlisted types make
  it fail.
