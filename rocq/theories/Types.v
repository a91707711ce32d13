(** Snapshot types and their operations: src/snapshot/types. *)
From Verif Require Import Base.

(** src/snapshot/types/column.rs:1-10 *)
Record column := Column {
  col_schema : str; col_table : str; col_name : str;
  col_type : str; col_notnull : bool; col_default : option str }.

(** src/snapshot/types/primarykey.rs:1-11 *)
Record primary_key := PrimaryKey {
  pk_schema : str; pk_table : str; pk_name : str;
  pk_columns : list str; pk_deferrable : bool; pk_initially : bool }.

(** src/snapshot/types/foreignkey.rs:1-17 *)
Record foreign_key := ForeignKey {
  fk_schema : str; fk_table : str; fk_name : str;
  fk_columns : list str; fk_tschema : str; fk_ttable : str; fk_tcolumns : list str;
  fk_match : str; fk_update : str; fk_delete : str;
  fk_deferrable : bool; fk_initially : bool }.

(** src/snapshot/types/unique.rs:1-11 *)
Record unique := Unique {
  uq_schema : str; uq_table : str; uq_name : str;
  uq_columns : list str; uq_deferrable : bool; uq_initially : bool }.

(** src/snapshot/types/check.rs:1-9 *)
Record check := Check {
  ck_schema : str; ck_table : str; ck_name : str;
  ck_expression : str; ck_deferrable : bool; ck_initially : bool }.

(** src/snapshot/types/constraint.rs:5-11 *)
Inductive constraint :=
  | CPrimaryKey (c : primary_key)
  | CForeignKey (c : foreign_key)
  | CUnique (c : unique)
  | CCheck (c : check).

(** src/snapshot/types/table.rs:7-14 *)
Record table := Table {
  tb_schema : str; tb_name : str;
  tb_columns : list column; tb_constraints : gmap str constraint }.

(** src/snapshot/types/view.rs:1-6 *)
Record view := View { vw_schema : str; vw_name : str; vw_query : str }.

(** src/snapshot/types/index.rs:1-10 *)
Record index := Index {
  ix_schema : str; ix_name : str; ix_table : str;
  ix_unique : bool; ix_method : str; ix_keys : list str }.

(** src/snapshot/types/sequence.rs:1-15; the i64 fields are integers. *)
Record sequence := Sequence {
  sq_schema : str; sq_name : str; sq_type : str;
  sq_increment : Z; sq_min : Z; sq_max : Z; sq_start : Z; sq_cache : Z;
  sq_cycle : bool; sq_owned_table : option str; sq_owned_column : option str }.

(** src/snapshot/types/relation.rs:5-11 *)
Inductive relation :=
  | RTable (t : table)
  | RView (v : view)
  | RIndex (i : index)
  | RSequence (s : sequence).

(** src/snapshot/types/function.rs:1-11 *)
Record function := Function {
  fn_schema : str; fn_name : str; fn_body : str; fn_language : str;
  fn_returns : str; fn_volatility : str }.

(** src/snapshot/types/schema.rs:7-12 *)
Record schema := Schema {
  sc_name : str; sc_relations : gmap str relation; sc_functions : gmap str function }.

(** src/snapshot/types/database.rs:7-10 *)
Record database := Database { db_schemas : gmap str schema }.

(** [#[derive(PartialEq)]] on every type above. *)
Global Instance column_eq_dec : EqDecision column.
Proof. solve_decision. Defined.
Global Instance primary_key_eq_dec : EqDecision primary_key.
Proof. solve_decision. Defined.
Global Instance foreign_key_eq_dec : EqDecision foreign_key.
Proof. solve_decision. Defined.
Global Instance unique_eq_dec : EqDecision unique.
Proof. solve_decision. Defined.
Global Instance check_eq_dec : EqDecision check.
Proof. solve_decision. Defined.
Global Instance constraint_eq_dec : EqDecision constraint.
Proof. solve_decision. Defined.
Global Instance table_eq_dec : EqDecision table.
Proof. solve_decision. Defined.
Global Instance view_eq_dec : EqDecision view.
Proof. solve_decision. Defined.
Global Instance index_eq_dec : EqDecision index.
Proof. solve_decision. Defined.
Global Instance sequence_eq_dec : EqDecision sequence.
Proof. solve_decision. Defined.
Global Instance relation_eq_dec : EqDecision relation.
Proof. solve_decision. Defined.
Global Instance function_eq_dec : EqDecision function.
Proof. solve_decision. Defined.
Global Instance schema_eq_dec : EqDecision schema.
Proof. solve_decision. Defined.
Global Instance database_eq_dec : EqDecision database.
Proof. solve_decision. Defined.

(** ** HashMap iteration order

    [HashMap::values]/[into_iter] visit the entries in an unspecified order.  An
    [iter_order] gives, for every map of a snapshot (identified by its place), the order
    in which its entries are visited; it is constrained only to visit each entry once. *)
Record iter_order := IterOrder {
  io_schemas : gmap str schema -> list (str * schema);
  io_relations : str -> gmap str relation -> list (str * relation);
  io_functions : str -> gmap str function -> list (str * function);
  io_constraints : str -> str -> gmap str constraint -> list (str * constraint);
  io_schemas_perm : forall m, io_schemas m ≡ₚ map_to_list m;
  io_relations_perm : forall p m, io_relations p m ≡ₚ map_to_list m;
  io_functions_perm : forall p m, io_functions p m ≡ₚ map_to_list m;
  io_constraints_perm : forall p q m, io_constraints p q m ≡ₚ map_to_list m }.

(** ** Errors: src/snapshot/error.rs *)

(** src/snapshot/error.rs:26-28 *)
Definition schema_not_found (s : str) := ObjectNotFound [s] (L "schema").
(** src/snapshot/error.rs:29-31 *)
Definition schema_already_exists (s : str) := ObjectAlreadyExists [s] (L "schema").
(** src/snapshot/error.rs:33-35 *)
Definition relation_not_found (s r : str) := ObjectNotFound [s; r] (L "relation").
(** src/snapshot/error.rs:36-38 *)
Definition relation_already_exists (s r : str) := ObjectAlreadyExists [s; r] (L "relation").
(** src/snapshot/error.rs:40-42 *)
Definition function_not_found (s f : str) := ObjectNotFound [s; f] (L "function").
(** src/snapshot/error.rs:43-45 *)
Definition function_already_exists (s f : str) := ObjectAlreadyExists [s; f] (L "function").
(** src/snapshot/error.rs:60-63 *)
Definition column_not_found (s r c : str) := ObjectNotFound [s; r; c] (L "column").
(** src/snapshot/error.rs:64-67 *)
Definition column_already_exists (s r c : str) := ObjectAlreadyExists [s; r; c] (L "column").
(** src/snapshot/error.rs:69-76 *)
Definition constraint_not_found (s r c : str) := ObjectNotFound [s; r; c] (L "constraint").
(** src/snapshot/error.rs:77-84 *)
Definition constraint_already_exists (s r c : str) :=
  ObjectAlreadyExists [s; r; c] (L "constraint").

(** ** Constraint: src/snapshot/types/constraint.rs *)

(** src/snapshot/types/constraint.rs:14-21 *)
Definition constraint_schema (c : constraint) : str :=
  match c with
  | CPrimaryKey c => pk_schema c | CForeignKey c => fk_schema c
  | CUnique c => uq_schema c | CCheck c => ck_schema c
  end.
(** src/snapshot/types/constraint.rs:23-30 *)
Definition constraint_table (c : constraint) : str :=
  match c with
  | CPrimaryKey c => pk_table c | CForeignKey c => fk_table c
  | CUnique c => uq_table c | CCheck c => ck_table c
  end.
(** src/snapshot/types/constraint.rs:32-39 *)
Definition constraint_name (c : constraint) : str :=
  match c with
  | CPrimaryKey c => pk_name c | CForeignKey c => fk_name c
  | CUnique c => uq_name c | CCheck c => ck_name c
  end.
(** src/snapshot/types/constraint.rs:93-100 *)
Definition constraint_type (c : constraint) : str :=
  match c with
  | CPrimaryKey _ => L "primary key" | CForeignKey _ => L "foreign key"
  | CUnique _ => L "unique" | CCheck _ => L "check"
  end.
(** src/snapshot/types/constraint.rs:102-110, src/snapshot/error.rs:86-102 *)
Definition constraint_unexpected (c : constraint) (expected : str) : snapshot_error :=
  ObjectHasUnexpectedType [constraint_schema c; constraint_table c; constraint_name c]
    expected (constraint_type c).
(** src/snapshot/types/constraint.rs:41-52, as_primary_key and as_primary_key_mut *)
Definition as_primary_key (c : constraint) : result primary_key :=
  match c with CPrimaryKey p => Ok p | _ => Err (constraint_unexpected c (L "primary key")) end.
(** src/snapshot/types/constraint.rs:54-65, as_foreign_key and as_foreign_key_mut *)
Definition as_foreign_key (c : constraint) : result foreign_key :=
  match c with CForeignKey p => Ok p | _ => Err (constraint_unexpected c (L "foreign key")) end.
(** src/snapshot/types/constraint.rs:67-78, as_unique and as_unique_mut *)
Definition as_unique (c : constraint) : result unique :=
  match c with CUnique p => Ok p | _ => Err (constraint_unexpected c (L "unique")) end.
(** src/snapshot/types/constraint.rs:80-91, as_check and as_check_mut *)
Definition as_check (c : constraint) : result check :=
  match c with CCheck p => Ok p | _ => Err (constraint_unexpected c (L "check")) end.

(** ** Relation: src/snapshot/types/relation.rs *)

(** src/snapshot/types/relation.rs:14-21 *)
Definition relation_schema (r : relation) : str :=
  match r with
  | RTable t => tb_schema t | RView v => vw_schema v
  | RIndex i => ix_schema i | RSequence s => sq_schema s
  end.
(** src/snapshot/types/relation.rs:23-30 *)
Definition relation_name (r : relation) : str :=
  match r with
  | RTable t => tb_name t | RView v => vw_name v
  | RIndex i => ix_name i | RSequence s => sq_name s
  end.
(** src/snapshot/types/relation.rs:81-88 *)
Definition relation_type (r : relation) : str :=
  match r with
  | RTable _ => L "table" | RView _ => L "view"
  | RIndex _ => L "index" | RSequence _ => L "sequence"
  end.
(** src/snapshot/types/relation.rs:90-97, src/snapshot/error.rs:47-58 *)
Definition relation_unexpected (r : relation) (expected : str) : snapshot_error :=
  ObjectHasUnexpectedType [relation_schema r; relation_name r] expected (relation_type r).
(** src/snapshot/types/relation.rs:32-43, as_table and as_table_mut *)
Definition as_table (r : relation) : result table :=
  match r with RTable t => Ok t | _ => Err (relation_unexpected r (L "table")) end.
(** src/snapshot/types/relation.rs:44-55, as_view and as_view_mut *)
Definition as_view (r : relation) : result view :=
  match r with RView v => Ok v | _ => Err (relation_unexpected r (L "view")) end.
(** src/snapshot/types/relation.rs:56-67, as_index and as_index_mut *)
Definition as_index (r : relation) : result index :=
  match r with RIndex i => Ok i | _ => Err (relation_unexpected r (L "index")) end.
(** src/snapshot/types/relation.rs:68-79, as_sequence and as_sequence_mut *)
Definition as_sequence (r : relation) : result sequence :=
  match r with RSequence s => Ok s | _ => Err (relation_unexpected r (L "sequence")) end.

(** ** Table: src/snapshot/types/table.rs *)

(** src/snapshot/types/table.rs:17-24 *)
Definition table_new (schema_name name : str) : table := Table schema_name name [] ∅.

(** The first column with the given name: [iter().find(..)], table.rs:31-33, 41-43. *)
Fixpoint find_column (n : str) (cs : list column) : option column :=
  match cs with
  | [] => None
  | c :: cs => if decide (col_name c = n) then Some c else find_column n cs
  end.

(** src/snapshot/types/table.rs:30-39 *)
Definition get_column (t : table) (n : str) : result column :=
  match find_column n (tb_columns t) with
  | Some c => Ok c
  | None => Err (column_not_found (tb_schema t) (tb_name t) n)
  end.

(** src/snapshot/types/table.rs:50-52 *)
Definition has_column (t : table) (n : str) : bool :=
  match find_column n (tb_columns t) with Some _ => true | None => false end.

(** Replaces the column list: the effect of [columns.push]/[remove]/element update. *)
Definition set_columns (t : table) (cs : list column) : table :=
  Table (tb_schema t) (tb_name t) cs (tb_constraints t).

(** Replaces the constraint map: the effect of [insert]/[remove]/element update. *)
Definition set_constraints (t : table) (cs : gmap str constraint) : table :=
  Table (tb_schema t) (tb_name t) (tb_columns t) cs.

(** Update of the first column with the given name through [iter_mut().find(..)],
    table.rs:40-49 together with the assignment made by the caller. *)
Fixpoint update_column (n : str) (f : column -> column) (cs : list column) : list column :=
  match cs with
  | [] => []
  | c :: cs => if decide (col_name c = n) then f c :: cs else c :: update_column n f cs
  end.

(** src/snapshot/types/table.rs:40-49: [get_column_mut(n)?] followed by an assignment to
    fields of the borrowed column. *)
Definition with_column_mut (n : str) (f : column -> column) : mut table () :=
  fun t => match find_column n (tb_columns t) with
           | Some _ => (set_columns t (update_column n f (tb_columns t)), Ok ())
           | None => (t, Err (column_not_found (tb_schema t) (tb_name t) n))
           end.

(** src/snapshot/types/table.rs:53-64 *)
Definition add_column (c : column) : mut table () :=
  fun t => if has_column t (col_name c)
           then (t, Err (column_already_exists (tb_schema t) (tb_name t) (col_name c)))
           else (set_columns t (tb_columns t ++ [c]), Ok ()).

(** Removal of the first column with the given name ([position] and [Vec::remove]). *)
Fixpoint delete_column (n : str) (cs : list column) : list column :=
  match cs with
  | [] => []
  | c :: cs => if decide (col_name c = n) then cs else c :: delete_column n cs
  end.

(** src/snapshot/types/table.rs:65-76 *)
Definition remove_column (n : str) : mut table column :=
  fun t => match find_column n (tb_columns t) with
           | Some c => (set_columns t (delete_column n (tb_columns t)), Ok c)
           | None => (t, Err (column_not_found (tb_schema t) (tb_name t) n))
           end.

(** src/snapshot/types/table.rs:82-90 *)
Definition get_constraint (t : table) (n : str) : result constraint :=
  match tb_constraints t !! n with
  | Some c => Ok c
  | None => Err (constraint_not_found (tb_schema t) (tb_name t) n)
  end.

(** src/snapshot/types/table.rs:91-102: [get_constraint_mut(n)?] followed by [k] on the
    borrowed constraint. *)
Definition with_constraint_mut {A} (n : str) (k : mut constraint A) : mut table A :=
  fun t => match tb_constraints t !! n with
           | Some c => let '(c', r) := k c in
                       (set_constraints t (<[n := c']> (tb_constraints t)), r)
           | None => (t, Err (constraint_not_found (tb_schema t) (tb_name t) n))
           end.

(** src/snapshot/types/table.rs:103-105 *)
Definition has_constraint (t : table) (n : str) : bool :=
  match tb_constraints t !! n with Some _ => true | None => false end.

(** src/snapshot/types/table.rs:106-117 *)
Definition add_constraint (c : constraint) : mut table () :=
  fun t => if has_constraint t (constraint_name c)
           then (t, Err (constraint_already_exists (tb_schema t) (tb_name t) (constraint_name c)))
           else (set_constraints t (<[constraint_name c := c]> (tb_constraints t)), Ok ()).

(** src/snapshot/types/table.rs:118-126 *)
Definition remove_constraint (n : str) : mut table constraint :=
  fun t => match tb_constraints t !! n with
           | Some c => (set_constraints t (delete n (tb_constraints t)), Ok c)
           | None => (t, Err (constraint_not_found (tb_schema t) (tb_name t) n))
           end.

(** ** Schema: src/snapshot/types/schema.rs *)

(** src/snapshot/types/schema.rs:15-21 *)
Definition schema_new (n : str) : schema := Schema n ∅ ∅.

(** The effect of mutating the relation map of a schema. *)
Definition set_relations (s : schema) (m : gmap str relation) : schema :=
  Schema (sc_name s) m (sc_functions s).

(** The effect of mutating the function map of a schema. *)
Definition set_functions (s : schema) (m : gmap str function) : schema :=
  Schema (sc_name s) (sc_relations s) m.

(** src/snapshot/types/schema.rs:28-32 *)
Definition get_relation (s : schema) (n : str) : result relation :=
  match sc_relations s !! n with
  | Some r => Ok r
  | None => Err (relation_not_found (sc_name s) n)
  end.

(** src/snapshot/types/schema.rs:36-40: [get_relation_mut(n)?] followed by [k] on the
    borrowed relation. *)
Definition with_relation_mut {A} (n : str) (k : mut relation A) : mut schema A :=
  fun s => match sc_relations s !! n with
           | Some r => let '(r', x) := k r in
                       (set_relations s (<[n := r']> (sc_relations s)), x)
           | None => (s, Err (relation_not_found (sc_name s) n))
           end.

(** src/snapshot/types/relation.rs:38-43: [as_table_mut()?] followed by [k]. *)
Definition with_table_mut {A} (k : mut table A) : mut relation A :=
  fun r => match r with
           | RTable t => let '(t', x) := k t in (RTable t', x)
           | _ => (r, Err (relation_unexpected r (L "table")))
           end.

(** src/snapshot/types/schema.rs:41-43 *)
Definition has_relation (s : schema) (n : str) : bool :=
  match sc_relations s !! n with Some _ => true | None => false end.

(** src/snapshot/types/schema.rs:44-51 *)
Definition add_relation (r : relation) : mut schema () :=
  fun s => if has_relation s (relation_name r)
           then (s, Err (relation_already_exists (sc_name s) (relation_name r)))
           else (set_relations s (<[relation_name r := r]> (sc_relations s)), Ok ()).

(** src/snapshot/types/schema.rs:52-56 *)
Definition remove_relation (n : str) : mut schema relation :=
  fun s => match sc_relations s !! n with
           | Some r => (set_relations s (delete n (sc_relations s)), Ok r)
           | None => (s, Err (relation_not_found (sc_name s) n))
           end.

(** src/snapshot/types/schema.rs:58-62 *)
Definition get_function (s : schema) (n : str) : result function :=
  match sc_functions s !! n with
  | Some f => Ok f
  | None => Err (function_not_found (sc_name s) n)
  end.

(** src/snapshot/types/schema.rs:71-73 *)
Definition has_function (s : schema) (n : str) : bool :=
  match sc_functions s !! n with Some _ => true | None => false end.

(** src/snapshot/types/schema.rs:74-84 *)
Definition add_function (f : function) : mut schema () :=
  fun s => if has_function s (fn_name f)
           then (s, Err (function_already_exists (sc_name s) (fn_name f)))
           else (set_functions s (<[fn_name f := f]> (sc_functions s)), Ok ()).

(** src/snapshot/types/schema.rs:85-89 *)
Definition remove_function (n : str) : mut schema function :=
  fun s => match sc_functions s !! n with
           | Some f => (set_functions s (delete n (sc_functions s)), Ok f)
           | None => (s, Err (function_not_found (sc_name s) n))
           end.

(** A [for] loop whose body may return early with [?]. *)
Fixpoint mfor {S A} (f : A -> mut S ()) (l : list A) : mut S () :=
  match l with
  | [] => mok ()
  | a :: l => let? _ := f a in mfor f l
  end.

(** src/snapshot/types/schema.rs:91-99; [o] gives the order in which the maps of
    [source] are consumed. *)
Definition merge_schema (o : iter_order) (source : schema) : mut schema () :=
  let? _ := mfor add_relation (io_relations o (sc_name source) (sc_relations source)).*2 in
  mfor add_function (io_functions o (sc_name source) (sc_functions source)).*2.

(** ** Database: src/snapshot/types/database.rs *)

(** src/snapshot/types/database.rs:13-17 *)
Definition database_new : database := Database ∅.

(** src/snapshot/types/database.rs:22-26 *)
Definition get_schema (d : database) (n : str) : result schema :=
  match db_schemas d !! n with
  | Some s => Ok s
  | None => Err (schema_not_found n)
  end.

(** src/snapshot/types/database.rs:27-31: [get_schema_mut(n)?] followed by [k]. *)
Definition with_schema_mut {A} (n : str) (k : mut schema A) : mut database A :=
  fun d => match db_schemas d !! n with
           | Some s => let '(s', x) := k s in (Database (<[n := s']> (db_schemas d)), x)
           | None => (d, Err (schema_not_found n))
           end.

(** src/snapshot/types/database.rs:32-34 *)
Definition has_schema (d : database) (n : str) : bool :=
  match db_schemas d !! n with Some _ => true | None => false end.

(** src/snapshot/types/database.rs:35-41 *)
Definition add_schema (s : schema) : mut database () :=
  fun d => if has_schema d (sc_name s)
           then (d, Err (schema_already_exists (sc_name s)))
           else (Database (<[sc_name s := s]> (db_schemas d)), Ok ()).

(** src/snapshot/types/database.rs:42-46 *)
Definition remove_schema (n : str) : mut database schema :=
  fun d => match db_schemas d !! n with
           | Some s => (Database (delete n (db_schemas d)), Ok s)
           | None => (d, Err (schema_not_found n))
           end.

(** One iteration of the loop in src/snapshot/types/database.rs:49-55. *)
Definition merge_one (o : iter_order) (e : str * schema) : mut database () :=
  fun d => let '(schema_name, s) := e in
           if has_schema d schema_name
           then with_schema_mut schema_name (merge_schema o s) d
           else add_schema s d.

(** src/snapshot/types/database.rs:48-57; [o] orders the maps of [other]. *)
Definition database_merge (o : iter_order) (other : database) : mut database () :=
  mfor (merge_one o) (io_schemas o (db_schemas other)).

(** ** Iteration *)

(** src/snapshot/types/database.rs:19-21 *)
Definition iter_schemas (o : iter_order) (d : database) : list schema :=
  (io_schemas o (db_schemas d)).*2.
(** src/snapshot/types/schema.rs:33-35 *)
Definition iter_relations (o : iter_order) (s : schema) : list relation :=
  (io_relations o (sc_name s) (sc_relations s)).*2.
(** src/snapshot/types/schema.rs:63-65 *)
Definition iter_functions (o : iter_order) (s : schema) : list function :=
  (io_functions o (sc_name s) (sc_functions s)).*2.
(** src/snapshot/types/table.rs:79-81 *)
Definition iter_constraints (o : iter_order) (t : table) : list constraint :=
  (io_constraints o (tb_schema t) (tb_name t) (tb_constraints t)).*2.
