(** How versions are written to files and to the version table, and read back: the
    [Serialize] and [Deserialize] instances that [serde] derives for [Version],
    [Change] and the 30 change structs.  The instances go between the Rust values and
    serde's data model (maps, sequences, strings, booleans, integers, null).  Printing
    that data as YAML or JSON text and parsing it back is done by serde_yaml and
    serde_json, which are not part of the repository: they appear as parameters. *)
From Verif Require Import Base Types Changes History.

(** serde's data model, as much of it as the derived instances use.  Integers are
    Rust's [i64] in the code; a number outside that range is not modelled. *)
Inductive data :=
  | DNull
  | DBool (b : bool)
  | DInt (z : Z)
  | DStr (s : str)
  | DSeq (l : list data)
  | DMap (l : list (str * data)).

(** ** Writing *)

(** [Serialize] of [Option<String>], [Vec<String>] (serde). *)
Definition of_option (o : option str) : data := from_option DStr DNull o.
Definition of_strings (l : list str) : data := DSeq (DStr <$> l).

(** src/snapshot/changes/table/create_table_change.rs:17-23 *)
Definition of_column (c : create_table_column) : data :=
  DMap [(L "name", DStr (cc_name c)); (L "data_type", DStr (cc_type c));
        (L "not_null", DBool (cc_notnull c)); (L "default", of_option (cc_default c))].
Definition of_columns (l : list create_table_column) : data := DSeq (of_column <$> l).

(** src/snapshot/changes/mod.rs:31-35: [#[serde(tag="type", content="change")]], the
    tag being the variant's name. *)
Definition tagged (tag : str) (fields : list (str * data)) : data :=
  DMap [(L "type", DStr tag); (L "change", DMap fields)].

(** src/snapshot/changes/mod.rs:31-35 and 68-100; the fields of each variant are those
    of its struct (cited below, relative to src/snapshot), in declaration order. *)
Definition of_change (c : change) : data :=
  match c with
  (* changes/check/add_check_change.rs:8-15 *)
  | AddCheck schema table constraint expression deferrable initially_deferred => tagged (L
        "AddCheckChange")
      [(L "schema", DStr schema); (L "table", DStr table); (L "constraint", DStr constraint);
       (L "expression", DStr expression); (L "deferrable", DBool deferrable);
       (L "initially_deferred", DBool initially_deferred)]
  (* changes/column/add_column_change.rs:8-15 *)
  | AddColumn schema table column data_type not_null dflt => tagged (L "AddColumnChange")
      [(L "schema", DStr schema); (L "table", DStr table); (L "column", DStr column);
       (L "data_type", DStr data_type); (L "not_null", DBool not_null);
       (L "default", of_option dflt)]
  (* changes/foreignkey/add_foreign_key_change.rs:8-21 *)
  | AddForeignKey schema table constraint columns target_schema target_table target_columns
        match_option update_rule delete_rule deferrable initially_deferred => tagged (L
        "AddForeignKeyChange")
      [(L "schema", DStr schema); (L "table", DStr table); (L "constraint", DStr constraint);
       (L "columns", of_strings columns); (L "target_schema", DStr target_schema);
       (L "target_table", DStr target_table); (L "target_columns", of_strings target_columns);
       (L "match_option", DStr match_option); (L "update_rule", DStr update_rule);
       (L "delete_rule", DStr delete_rule); (L "deferrable", DBool deferrable);
       (L "initially_deferred", DBool initially_deferred)]
  (* changes/primarykey/add_primary_key_change.rs:9-16 *)
  | AddPrimaryKey schema table constraint columns deferrable initially_deferred => tagged (L
        "AddPrimaryKeyChange")
      [(L "schema", DStr schema); (L "table", DStr table); (L "constraint", DStr constraint);
       (L "columns", of_strings columns); (L "deferrable", DBool deferrable);
       (L "initially_deferred", DBool initially_deferred)]
  (* changes/unique/add_unique_change.rs:9-16 *)
  | AddUnique schema table constraint columns deferrable initially_deferred => tagged (L
        "AddUniqueChange")
      [(L "schema", DStr schema); (L "table", DStr table); (L "constraint", DStr constraint);
       (L "columns", of_strings columns); (L "deferrable", DBool deferrable);
       (L "initially_deferred", DBool initially_deferred)]
  (* changes/check/alter_check_change.rs:7-13 *)
  | AlterCheck schema table constraint deferrable initially_deferred => tagged (L
        "AlterCheckChange")
      [(L "schema", DStr schema); (L "table", DStr table); (L "constraint", DStr constraint);
       (L "deferrable", DBool deferrable); (L "initially_deferred", DBool initially_deferred)]
  (* changes/column/alter_column_set_data_type_change.rs:7-12 *)
  | AlterColumnSetDataType schema table column data_type => tagged (L
        "AlterColumnSetDataTypeChange")
      [(L "schema", DStr schema); (L "table", DStr table); (L "column", DStr column);
       (L "data_type", DStr data_type)]
  (* changes/column/alter_column_set_default_change.rs:7-12 *)
  | AlterColumnSetDefault schema table column dflt => tagged (L "AlterColumnSetDefaultChange")
      [(L "schema", DStr schema); (L "table", DStr table); (L "column", DStr column);
       (L "default", of_option dflt)]
  (* changes/column/alter_column_set_null_change.rs:7-12 *)
  | AlterColumnSetNotNull schema table column not_null => tagged (L
        "AlterColumnSetNotNullChange")
      [(L "schema", DStr schema); (L "table", DStr table); (L "column", DStr column);
       (L "not_null", DBool not_null)]
  (* changes/foreignkey/alter_foreign_key_change.rs:7-13 *)
  | AlterForeignKey schema table constraint deferrable initially_deferred => tagged (L
        "AlterForeignKeyChange")
      [(L "schema", DStr schema); (L "table", DStr table); (L "constraint", DStr constraint);
       (L "deferrable", DBool deferrable); (L "initially_deferred", DBool initially_deferred)]
  (* changes/primarykey/alter_primary_key_change.rs:8-14 *)
  | AlterPrimaryKey schema table constraint deferrable initially_deferred => tagged (L
        "AlterPrimaryKeyChange")
      [(L "schema", DStr schema); (L "table", DStr table); (L "constraint", DStr constraint);
       (L "deferrable", DBool deferrable); (L "initially_deferred", DBool initially_deferred)]
  (* changes/unique/alter_unique_change.rs:8-14 *)
  | AlterUnique schema table constraint deferrable initially_deferred => tagged (L
        "AlterUniqueChange")
      [(L "schema", DStr schema); (L "table", DStr table); (L "constraint", DStr constraint);
       (L "deferrable", DBool deferrable); (L "initially_deferred", DBool initially_deferred)]
  (* changes/function/create_functon_change.rs:7-14 *)
  | CreateFunction schema func body language returns volatility => tagged (L
        "CreateFunctionChange")
      [(L "schema", DStr schema); (L "function", DStr func); (L "body", DStr body);
       (L "language", DStr language); (L "returns", DStr returns);
       (L "volatility", DStr volatility)]
  (* changes/index/create_index_change.rs:9-17 *)
  | CreateIndex schema table index unique method key_expressions => tagged (L
        "CreateIndexChange")
      [(L "schema", DStr schema); (L "table", DStr table); (L "index", DStr index);
       (L "unique", DBool unique); (L "method", DStr method);
       (L "key_expressions", of_strings key_expressions)]
  (* changes/schema/create_schema_change.rs:6-8 *)
  | CreateSchema schema_name => tagged (L "CreateSchemaChange")
      [(L "schema_name", DStr schema_name)]
  (* changes/sequence/create_sequence_change.rs:9-20 *)
  | CreateSequence schema sequence data_type increment min_value max_value start cache cycle =>
        tagged (L "CreateSequenceChange")
      [(L "schema", DStr schema); (L "sequence", DStr sequence);
       (L "data_type", DStr data_type); (L "increment", DInt increment);
       (L "min_value", DInt min_value); (L "max_value", DInt max_value);
       (L "start", DInt start); (L "cache", DInt cache); (L "cycle", DBool cycle)]
  (* changes/table/create_table_change.rs:11-15 *)
  | CreateTable schema table columns => tagged (L "CreateTableChange")
      [(L "schema", DStr schema); (L "table", DStr table);
       (L "columns", of_columns columns)]
  (* changes/view/create_view_change.rs:6-10 *)
  | CreateView schema view query => tagged (L "CreateViewChange")
      [(L "schema", DStr schema); (L "view", DStr view); (L "query", DStr query)]
  (* changes/check/drop_check_change.rs:8-12 *)
  | DropCheck schema table constraint => tagged (L "DropCheckChange")
      [(L "schema", DStr schema); (L "table", DStr table); (L "constraint", DStr constraint)]
  (* changes/column/drop_column_change.rs:8-12 *)
  | DropColumn schema table column => tagged (L "DropColumnChange")
      [(L "schema", DStr schema); (L "table", DStr table); (L "column", DStr column)]
  (* changes/foreignkey/drop_foreign_key_change.rs:8-12 *)
  | DropForeignKey schema table constraint => tagged (L "DropForeignKeyChange")
      [(L "schema", DStr schema); (L "table", DStr table); (L "constraint", DStr constraint)]
  (* changes/function/drop_function_change.rs:7-10 *)
  | DropFunction schema func => tagged (L "DropFunctionChange")
      [(L "schema", DStr schema); (L "function", DStr func)]
  (* changes/index/drop_index_change.rs:9-12 *)
  | DropIndex schema index => tagged (L "DropIndexChange")
      [(L "schema", DStr schema); (L "index", DStr index)]
  (* changes/primarykey/drop_primary_key_change.rs:9-13 *)
  | DropPrimaryKey schema table constraint => tagged (L "DropPrimaryKeyChange")
      [(L "schema", DStr schema); (L "table", DStr table); (L "constraint", DStr constraint)]
  (* changes/schema/drop_schema_change.rs:6-8 *)
  | DropSchema schema_name => tagged (L "DropSchemaChange")
      [(L "schema_name", DStr schema_name)]
  (* changes/sequence/drop_sequence_change.rs:9-12 *)
  | DropSequence schema sequence => tagged (L "DropSequenceChange")
      [(L "schema", DStr schema); (L "sequence", DStr sequence)]
  (* changes/table/drop_table_change.rs:10-13 *)
  | DropTable schema table => tagged (L "DropTableChange")
      [(L "schema", DStr schema); (L "table", DStr table)]
  (* changes/unique/drop_unique_change.rs:9-13 *)
  | DropUnique schema table constraint => tagged (L "DropUniqueChange")
      [(L "schema", DStr schema); (L "table", DStr table); (L "constraint", DStr constraint)]
  (* changes/view/drop_view_change.rs:9-12 *)
  | DropView schema view => tagged (L "DropViewChange")
      [(L "schema", DStr schema); (L "view", DStr view)]
  (* changes/column/rename_column_change.rs:7-12 *)
  | RenameColumn from_schema from_table from_column to_column => tagged (L "RenameColumnChange")
      [(L "from_schema", DStr from_schema); (L "from_table", DStr from_table);
       (L "from_column", DStr from_column); (L "to_column", DStr to_column)]
  end.

(** src/history/version.rs:7-14 *)
Definition of_version (v : version) : data :=
  DMap [(L "name", DStr (v_name v)); (L "previous", of_option (v_previous v));
        (L "changes", DSeq (of_change <$> v_changes v));
        (L "up", of_strings (v_up v)); (L "down", of_strings (v_down v))].

(** ** Reading *)

(** The value of a struct's field in a map: derived [Deserialize] takes the fields in
    any order, skips names it does not know, and fails on a field given twice.  (It
    would also accept a sequence in place of the map; that form is never written and is
    not modelled.) *)
Definition values (m : list (str * data)) (k : str) : list data :=
  (filter (fun e => e.1 = k) m).*2.
Definition field (m : list (str * data)) (k : str) : option data :=
  match values m k with [d] => Some d | _ => None end.

(** A field of type [Option<String>]: may be missing or null (serde). *)
Definition optional (m : list (str * data)) (k : str) : option (option str) :=
  match values m k with
  | [] | [DNull] => Some None
  | [DStr s] => Some (Some s)
  | _ => None
  end.

(** [Deserialize] of [String], [bool], [i64], [Vec<_>] (serde).  (From YAML, a number
    or a boolean not in quotes is also accepted as a [String]; not modelled: strings
    are always written as strings.) *)
Definition text (d : data) : option str :=
  match d with DStr s => Some s | _ => None end.
Definition boolean (d : data) : option bool :=
  match d with DBool b => Some b | _ => None end.
Definition integer (d : data) : option Z :=
  match d with DInt z => Some z | _ => None end.
Definition sequence_of {A} (f : data -> option A) (d : data) : option (list A) :=
  match d with DSeq l => mapM f l | _ => None end.
Definition strings (d : data) : option (list str) := sequence_of text d.

(** src/snapshot/changes/table/create_table_change.rs:17-23 *)
Definition to_column (d : data) : option create_table_column :=
  match d with
  | DMap m =>
    nm ← (field m (L "name") ≫= text);
    ty ← (field m (L "data_type") ≫= text);
    nn ← (field m (L "not_null") ≫= boolean);
    df ← optional m (L "default");
    Some (CreateTableColumn nm ty nn df)
  | _ => None
  end.
Definition columns_of (d : data) : option (list create_table_column) :=
  sequence_of to_column d.

(** src/snapshot/changes/mod.rs:68-100 and the structs; see [of_change]. *)
Definition variants : list (str * (list (str * data) -> option change)) :=
  [(* changes/check/add_check_change.rs:8-15 *)
   (L "AddCheckChange", fun m =>
      schema ← (field m (L "schema") ≫= text); table ← (field m (L "table") ≫= text);
      constraint ← (field m (L "constraint") ≫= text);
      expression ← (field m (L "expression") ≫= text);
      deferrable ← (field m (L "deferrable") ≫= boolean);
      initially_deferred ← (field m (L "initially_deferred") ≫= boolean);
      Some (AddCheck schema table constraint expression deferrable initially_deferred));
   (* changes/column/add_column_change.rs:8-15 *)
   (L "AddColumnChange", fun m =>
      schema ← (field m (L "schema") ≫= text); table ← (field m (L "table") ≫= text);
      column ← (field m (L "column") ≫= text); data_type ← (field m (L "data_type") ≫= text);
      not_null ← (field m (L "not_null") ≫= boolean); dflt ← optional m (L "default");
      Some (AddColumn schema table column data_type not_null dflt));
   (* changes/foreignkey/add_foreign_key_change.rs:8-21 *)
   (L "AddForeignKeyChange", fun m =>
      schema ← (field m (L "schema") ≫= text); table ← (field m (L "table") ≫= text);
      constraint ← (field m (L "constraint") ≫= text);
      columns ← (field m (L "columns") ≫= strings);
      target_schema ← (field m (L "target_schema") ≫= text);
      target_table ← (field m (L "target_table") ≫= text);
      target_columns ← (field m (L "target_columns") ≫= strings);
      match_option ← (field m (L "match_option") ≫= text);
      update_rule ← (field m (L "update_rule") ≫= text);
      delete_rule ← (field m (L "delete_rule") ≫= text);
      deferrable ← (field m (L "deferrable") ≫= boolean);
      initially_deferred ← (field m (L "initially_deferred") ≫= boolean);
      Some (AddForeignKey schema table constraint columns target_schema target_table target_columns match_option update_rule delete_rule deferrable initially_deferred));
   (* changes/primarykey/add_primary_key_change.rs:9-16 *)
   (L "AddPrimaryKeyChange", fun m =>
      schema ← (field m (L "schema") ≫= text); table ← (field m (L "table") ≫= text);
      constraint ← (field m (L "constraint") ≫= text);
      columns ← (field m (L "columns") ≫= strings);
      deferrable ← (field m (L "deferrable") ≫= boolean);
      initially_deferred ← (field m (L "initially_deferred") ≫= boolean);
      Some (AddPrimaryKey schema table constraint columns deferrable initially_deferred));
   (* changes/unique/add_unique_change.rs:9-16 *)
   (L "AddUniqueChange", fun m =>
      schema ← (field m (L "schema") ≫= text); table ← (field m (L "table") ≫= text);
      constraint ← (field m (L "constraint") ≫= text);
      columns ← (field m (L "columns") ≫= strings);
      deferrable ← (field m (L "deferrable") ≫= boolean);
      initially_deferred ← (field m (L "initially_deferred") ≫= boolean);
      Some (AddUnique schema table constraint columns deferrable initially_deferred));
   (* changes/check/alter_check_change.rs:7-13 *)
   (L "AlterCheckChange", fun m =>
      schema ← (field m (L "schema") ≫= text); table ← (field m (L "table") ≫= text);
      constraint ← (field m (L "constraint") ≫= text);
      deferrable ← (field m (L "deferrable") ≫= boolean);
      initially_deferred ← (field m (L "initially_deferred") ≫= boolean);
      Some (AlterCheck schema table constraint deferrable initially_deferred));
   (* changes/column/alter_column_set_data_type_change.rs:7-12 *)
   (L "AlterColumnSetDataTypeChange", fun m =>
      schema ← (field m (L "schema") ≫= text); table ← (field m (L "table") ≫= text);
      column ← (field m (L "column") ≫= text); data_type ← (field m (L "data_type") ≫= text);
      Some (AlterColumnSetDataType schema table column data_type));
   (* changes/column/alter_column_set_default_change.rs:7-12 *)
   (L "AlterColumnSetDefaultChange", fun m =>
      schema ← (field m (L "schema") ≫= text); table ← (field m (L "table") ≫= text);
      column ← (field m (L "column") ≫= text); dflt ← optional m (L "default");
      Some (AlterColumnSetDefault schema table column dflt));
   (* changes/column/alter_column_set_null_change.rs:7-12 *)
   (L "AlterColumnSetNotNullChange", fun m =>
      schema ← (field m (L "schema") ≫= text); table ← (field m (L "table") ≫= text);
      column ← (field m (L "column") ≫= text); not_null ← (field m (L "not_null") ≫= boolean);
      Some (AlterColumnSetNotNull schema table column not_null));
   (* changes/foreignkey/alter_foreign_key_change.rs:7-13 *)
   (L "AlterForeignKeyChange", fun m =>
      schema ← (field m (L "schema") ≫= text); table ← (field m (L "table") ≫= text);
      constraint ← (field m (L "constraint") ≫= text);
      deferrable ← (field m (L "deferrable") ≫= boolean);
      initially_deferred ← (field m (L "initially_deferred") ≫= boolean);
      Some (AlterForeignKey schema table constraint deferrable initially_deferred));
   (* changes/primarykey/alter_primary_key_change.rs:8-14 *)
   (L "AlterPrimaryKeyChange", fun m =>
      schema ← (field m (L "schema") ≫= text); table ← (field m (L "table") ≫= text);
      constraint ← (field m (L "constraint") ≫= text);
      deferrable ← (field m (L "deferrable") ≫= boolean);
      initially_deferred ← (field m (L "initially_deferred") ≫= boolean);
      Some (AlterPrimaryKey schema table constraint deferrable initially_deferred));
   (* changes/unique/alter_unique_change.rs:8-14 *)
   (L "AlterUniqueChange", fun m =>
      schema ← (field m (L "schema") ≫= text); table ← (field m (L "table") ≫= text);
      constraint ← (field m (L "constraint") ≫= text);
      deferrable ← (field m (L "deferrable") ≫= boolean);
      initially_deferred ← (field m (L "initially_deferred") ≫= boolean);
      Some (AlterUnique schema table constraint deferrable initially_deferred));
   (* changes/function/create_functon_change.rs:7-14 *)
   (L "CreateFunctionChange", fun m =>
      schema ← (field m (L "schema") ≫= text); func ← (field m (L "function") ≫= text);
      body ← (field m (L "body") ≫= text); language ← (field m (L "language") ≫= text);
      returns ← (field m (L "returns") ≫= text);
      volatility ← (field m (L "volatility") ≫= text);
      Some (CreateFunction schema func body language returns volatility));
   (* changes/index/create_index_change.rs:9-17 *)
   (L "CreateIndexChange", fun m =>
      schema ← (field m (L "schema") ≫= text); table ← (field m (L "table") ≫= text);
      index ← (field m (L "index") ≫= text); unique ← (field m (L "unique") ≫= boolean);
      method ← (field m (L "method") ≫= text);
      key_expressions ← (field m (L "key_expressions") ≫= strings);
      Some (CreateIndex schema table index unique method key_expressions));
   (* changes/schema/create_schema_change.rs:6-8 *)
   (L "CreateSchemaChange", fun m =>
      schema_name ← (field m (L "schema_name") ≫= text);
      Some (CreateSchema schema_name));
   (* changes/sequence/create_sequence_change.rs:9-20 *)
   (L "CreateSequenceChange", fun m =>
      schema ← (field m (L "schema") ≫= text); sequence ← (field m (L "sequence") ≫= text);
      data_type ← (field m (L "data_type") ≫= text);
      increment ← (field m (L "increment") ≫= integer);
      min_value ← (field m (L "min_value") ≫= integer);
      max_value ← (field m (L "max_value") ≫= integer);
      start ← (field m (L "start") ≫= integer); cache ← (field m (L "cache") ≫= integer);
      cycle ← (field m (L "cycle") ≫= boolean);
      Some (CreateSequence schema sequence data_type increment min_value max_value start cache cycle));
   (* changes/table/create_table_change.rs:11-15 *)
   (L "CreateTableChange", fun m =>
      schema ← (field m (L "schema") ≫= text); table ← (field m (L "table") ≫= text);
      columns ← (field m (L "columns") ≫= columns_of);
      Some (CreateTable schema table columns));
   (* changes/view/create_view_change.rs:6-10 *)
   (L "CreateViewChange", fun m =>
      schema ← (field m (L "schema") ≫= text); view ← (field m (L "view") ≫= text);
      query ← (field m (L "query") ≫= text);
      Some (CreateView schema view query));
   (* changes/check/drop_check_change.rs:8-12 *)
   (L "DropCheckChange", fun m =>
      schema ← (field m (L "schema") ≫= text); table ← (field m (L "table") ≫= text);
      constraint ← (field m (L "constraint") ≫= text);
      Some (DropCheck schema table constraint));
   (* changes/column/drop_column_change.rs:8-12 *)
   (L "DropColumnChange", fun m =>
      schema ← (field m (L "schema") ≫= text); table ← (field m (L "table") ≫= text);
      column ← (field m (L "column") ≫= text);
      Some (DropColumn schema table column));
   (* changes/foreignkey/drop_foreign_key_change.rs:8-12 *)
   (L "DropForeignKeyChange", fun m =>
      schema ← (field m (L "schema") ≫= text); table ← (field m (L "table") ≫= text);
      constraint ← (field m (L "constraint") ≫= text);
      Some (DropForeignKey schema table constraint));
   (* changes/function/drop_function_change.rs:7-10 *)
   (L "DropFunctionChange", fun m =>
      schema ← (field m (L "schema") ≫= text); func ← (field m (L "function") ≫= text);
      Some (DropFunction schema func));
   (* changes/index/drop_index_change.rs:9-12 *)
   (L "DropIndexChange", fun m =>
      schema ← (field m (L "schema") ≫= text); index ← (field m (L "index") ≫= text);
      Some (DropIndex schema index));
   (* changes/primarykey/drop_primary_key_change.rs:9-13 *)
   (L "DropPrimaryKeyChange", fun m =>
      schema ← (field m (L "schema") ≫= text); table ← (field m (L "table") ≫= text);
      constraint ← (field m (L "constraint") ≫= text);
      Some (DropPrimaryKey schema table constraint));
   (* changes/schema/drop_schema_change.rs:6-8 *)
   (L "DropSchemaChange", fun m =>
      schema_name ← (field m (L "schema_name") ≫= text);
      Some (DropSchema schema_name));
   (* changes/sequence/drop_sequence_change.rs:9-12 *)
   (L "DropSequenceChange", fun m =>
      schema ← (field m (L "schema") ≫= text); sequence ← (field m (L "sequence") ≫= text);
      Some (DropSequence schema sequence));
   (* changes/table/drop_table_change.rs:10-13 *)
   (L "DropTableChange", fun m =>
      schema ← (field m (L "schema") ≫= text); table ← (field m (L "table") ≫= text);
      Some (DropTable schema table));
   (* changes/unique/drop_unique_change.rs:9-13 *)
   (L "DropUniqueChange", fun m =>
      schema ← (field m (L "schema") ≫= text); table ← (field m (L "table") ≫= text);
      constraint ← (field m (L "constraint") ≫= text);
      Some (DropUnique schema table constraint));
   (* changes/view/drop_view_change.rs:9-12 *)
   (L "DropViewChange", fun m =>
      schema ← (field m (L "schema") ≫= text); view ← (field m (L "view") ≫= text);
      Some (DropView schema view));
   (* changes/column/rename_column_change.rs:7-12 *)
   (L "RenameColumnChange", fun m =>
      from_schema ← (field m (L "from_schema") ≫= text);
      from_table ← (field m (L "from_table") ≫= text);
      from_column ← (field m (L "from_column") ≫= text);
      to_column ← (field m (L "to_column") ≫= text);
      Some (RenameColumn from_schema from_table from_column to_column))].

(** The variant a tag names; an unknown tag is an error (serde). *)
Definition variant (tag : str) : option (list (str * data) -> option change) :=
  snd <$> head (filter (fun e => e.1 = tag) variants).

(** src/snapshot/changes/mod.rs:31-35 *)
Definition to_change (d : data) : option change :=
  match d with
  | DMap m =>
    tag ← (field m (L "type") ≫= text);
    content ← field m (L "change");
    make ← variant tag;
    match content with DMap fields => make fields | _ => None end
  | _ => None
  end.

(** src/history/version.rs:7-14 *)
Definition to_version (d : data) : option version :=
  match d with
  | DMap m =>
    nm ← (field m (L "name") ≫= text);
    pr ← optional m (L "previous");
    ch ← (field m (L "changes") ≫= sequence_of to_change);
    up ← (field m (L "up") ≫= strings);
    dn ← (field m (L "down") ≫= strings);
    Some (Version nm pr ch up dn)
  | _ => None
  end.

(** ** Files and rows *)

Section text_formats.
  (** serde_yaml::to_writer/from_reader and serde_json::to_string/from_str between
      text and serde's data model; also the UTF-8 decoding of the file. *)
  Context (print_yaml : data -> str) (parse_yaml : str -> option data).
  Context (print_json : data -> str) (parse_json : str -> option data).

  (** src/history/fsh.rs:97-108 (line 105): the contents of a version file. *)
  Definition file_of_version (v : version) : str := print_yaml (of_version v).
  (** src/history/fsh.rs:69-76 (line 73) *)
  Definition version_of_file (s : str) : option version := parse_yaml s ≫= to_version.

  (** The columns of a row of the version table that hold the version:
      src/history/dbh.rs:164-177. *)
  Record stored_row := StoredRow {
    r_name : str; r_previous : option str; r_changes : str;
    r_up : list str; r_down : list str }.

  (** src/history/dbh.rs:20-38 *)
  Definition row_of_version (v : version) : stored_row :=
    StoredRow (v_name v) (v_previous v)
      (print_json (DSeq (of_change <$> v_changes v))) (v_up v) (v_down v).

  (** src/history/dbh.rs:141-157; [None]: the changes could not be read. *)
  Definition populate_row (r : stored_row) : option version :=
    ch ← (parse_json (r_changes r) ≫= sequence_of to_change);
    Some (Version (r_name r) (r_previous r) ch (r_up r) (r_down r)).
End text_formats.
