(** The 30 change kinds, their [new], [apply] and [revert]: src/snapshot/changes. *)
From Verif Require Import Base Types.

(** src/snapshot/changes/table/create_table_change.rs:17-23 *)
Record create_table_column := CreateTableColumn {
  cc_name : str; cc_type : str; cc_notnull : bool; cc_default : option str }.

Global Instance create_table_column_eq_dec : EqDecision create_table_column.
Proof. solve_decision. Defined.

(** src/snapshot/changes/mod.rs:69-101 and the struct declared at the top of each
    src/snapshot/changes/<kind>/<change>.rs; constructor arguments are the struct's
    fields in declaration order. *)
Inductive change :=
  | AddCheck (schema table constraint expression : str) (deferrable initially_deferred : bool)
  | AddColumn (schema table column data_type : str) (not_null : bool) (default : option str)
  | AddForeignKey (schema table constraint : str) (columns : list str)
      (target_schema target_table : str) (target_columns : list str)
      (match_option update_rule delete_rule : str) (deferrable initially_deferred : bool)
  | AddPrimaryKey (schema table constraint : str) (columns : list str)
      (deferrable initially_deferred : bool)
  | AddUnique (schema table constraint : str) (columns : list str)
      (deferrable initially_deferred : bool)
  | AlterCheck (schema table constraint : str) (deferrable initially_deferred : bool)
  | AlterColumnSetDataType (schema table column data_type : str)
  | AlterColumnSetDefault (schema table column : str) (default : option str)
  | AlterColumnSetNotNull (schema table column : str) (not_null : bool)
  | AlterForeignKey (schema table constraint : str) (deferrable initially_deferred : bool)
  | AlterPrimaryKey (schema table constraint : str) (deferrable initially_deferred : bool)
  | AlterUnique (schema table constraint : str) (deferrable initially_deferred : bool)
  | CreateFunction (schema function body language returns volatility : str)
  | CreateIndex (schema table index : str) (unique : bool) (method : str)
      (key_expressions : list str)
  | CreateSchema (schema_name : str)
  | CreateSequence (schema sequence data_type : str)
      (increment min_value max_value start cache : Z) (cycle : bool)
  | CreateTable (schema table : str) (columns : list create_table_column)
  | CreateView (schema view query : str)
  | DropCheck (schema table constraint : str)
  | DropColumn (schema table column : str)
  | DropForeignKey (schema table constraint : str)
  | DropFunction (schema function : str)
  | DropIndex (schema index : str)
  | DropPrimaryKey (schema table constraint : str)
  | DropSchema (schema_name : str)
  | DropSequence (schema sequence : str)
  | DropTable (schema table : str)
  | DropUnique (schema table constraint : str)
  | DropView (schema view : str)
  | RenameColumn (from_schema from_table from_column to_column : str).

Global Instance change_eq_dec : EqDecision change.
Proof. solve_decision. Defined.

(** ** Constructors from snapshot objects ([X::new]) *)

(** changes/check/add_check_change.rs:18-27 *)
Definition new_add_check (c : check) : change :=
  AddCheck (ck_schema c) (ck_table c) (ck_name c) (ck_expression c)
    (ck_deferrable c) (ck_initially c).
(** changes/column/add_column_change.rs:18-27 *)
Definition new_add_column (c : column) : change :=
  AddColumn (col_schema c) (col_table c) (col_name c) (col_type c)
    (col_notnull c) (col_default c).
(** changes/foreignkey/add_foreign_key_change.rs:24-39 *)
Definition new_add_foreign_key (c : foreign_key) : change :=
  AddForeignKey (fk_schema c) (fk_table c) (fk_name c) (fk_columns c)
    (fk_tschema c) (fk_ttable c) (fk_tcolumns c) (fk_match c) (fk_update c) (fk_delete c)
    (fk_deferrable c) (fk_initially c).
(** changes/primarykey/add_primary_key_change.rs:19-28 *)
Definition new_add_primary_key (c : primary_key) : change :=
  AddPrimaryKey (pk_schema c) (pk_table c) (pk_name c) (pk_columns c)
    (pk_deferrable c) (pk_initially c).
(** changes/unique/add_unique_change.rs:19-28 *)
Definition new_add_unique (c : unique) : change :=
  AddUnique (uq_schema c) (uq_table c) (uq_name c) (uq_columns c)
    (uq_deferrable c) (uq_initially c).
(** changes/check/alter_check_change.rs:16-24 *)
Definition new_alter_check (c : check) : change :=
  AlterCheck (ck_schema c) (ck_table c) (ck_name c) (ck_deferrable c) (ck_initially c).
(** changes/column/alter_column_set_data_type_change.rs:15-22 *)
Definition new_alter_data_type (c : column) : change :=
  AlterColumnSetDataType (col_schema c) (col_table c) (col_name c) (col_type c).
(** changes/column/alter_column_set_default_change.rs:15-22 *)
Definition new_alter_default (c : column) : change :=
  AlterColumnSetDefault (col_schema c) (col_table c) (col_name c) (col_default c).
(** changes/column/alter_column_set_null_change.rs:15-22 *)
Definition new_alter_not_null (c : column) : change :=
  AlterColumnSetNotNull (col_schema c) (col_table c) (col_name c) (col_notnull c).
(** changes/foreignkey/alter_foreign_key_change.rs:16-24 *)
Definition new_alter_foreign_key (c : foreign_key) : change :=
  AlterForeignKey (fk_schema c) (fk_table c) (fk_name c) (fk_deferrable c) (fk_initially c).
(** changes/primarykey/alter_primary_key_change.rs:17-25 *)
Definition new_alter_primary_key (c : primary_key) : change :=
  AlterPrimaryKey (pk_schema c) (pk_table c) (pk_name c) (pk_deferrable c) (pk_initially c).
(** changes/unique/alter_unique_change.rs:17-25 *)
Definition new_alter_unique (c : unique) : change :=
  AlterUnique (uq_schema c) (uq_table c) (uq_name c) (uq_deferrable c) (uq_initially c).
(** changes/function/create_functon_change.rs:17-26 *)
Definition new_create_function (f : function) : change :=
  CreateFunction (fn_schema f) (fn_name f) (fn_body f) (fn_language f)
    (fn_returns f) (fn_volatility f).
(** changes/index/create_index_change.rs:20-29 *)
Definition new_create_index (i : index) : change :=
  CreateIndex (ix_schema i) (ix_table i) (ix_name i) (ix_unique i) (ix_method i) (ix_keys i).
(** changes/schema/create_schema_change.rs:11-15 *)
Definition new_create_schema (s : schema) : change := CreateSchema (sc_name s).
(** changes/sequence/create_sequence_change.rs:23-36 *)
Definition new_create_sequence (s : sequence) : change :=
  CreateSequence (sq_schema s) (sq_name s) (sq_type s) (sq_increment s)
    (sq_min s) (sq_max s) (sq_start s) (sq_cache s) (sq_cycle s).
(** changes/table/create_table_change.rs:33-38 *)
Definition new_create_column (c : column) : create_table_column :=
  CreateTableColumn (col_name c) (col_type c) (col_notnull c) (col_default c).
(** changes/table/create_table_change.rs:26-41 *)
Definition new_create_table (t : table) : change :=
  CreateTable (tb_schema t) (tb_name t) (new_create_column <$> tb_columns t).
(** changes/view/create_view_change.rs:13-19 *)
Definition new_create_view (v : view) : change :=
  CreateView (vw_schema v) (vw_name v) (vw_query v).
(** changes/check/drop_check_change.rs:15-21 *)
Definition new_drop_check (c : check) : change :=
  DropCheck (ck_schema c) (ck_table c) (ck_name c).
(** changes/column/drop_column_change.rs:15-21 *)
Definition new_drop_column (c : column) : change :=
  DropColumn (col_schema c) (col_table c) (col_name c).
(** changes/foreignkey/drop_foreign_key_change.rs:15-21 *)
Definition new_drop_foreign_key (c : foreign_key) : change :=
  DropForeignKey (fk_schema c) (fk_table c) (fk_name c).
(** changes/function/drop_function_change.rs:13-18 *)
Definition new_drop_function (f : function) : change := DropFunction (fn_schema f) (fn_name f).
(** changes/index/drop_index_change.rs:15-20 *)
Definition new_drop_index (i : index) : change := DropIndex (ix_schema i) (ix_name i).
(** changes/primarykey/drop_primary_key_change.rs:16-22 *)
Definition new_drop_primary_key (c : primary_key) : change :=
  DropPrimaryKey (pk_schema c) (pk_table c) (pk_name c).
(** changes/schema/drop_schema_change.rs:11-15 *)
Definition new_drop_schema (s : schema) : change := DropSchema (sc_name s).
(** changes/sequence/drop_sequence_change.rs:15-20 *)
Definition new_drop_sequence (s : sequence) : change := DropSequence (sq_schema s) (sq_name s).
(** changes/table/drop_table_change.rs:16-21 *)
Definition new_drop_table (t : table) : change := DropTable (tb_schema t) (tb_name t).
(** changes/unique/drop_unique_change.rs:16-22 *)
Definition new_drop_unique (c : unique) : change :=
  DropUnique (uq_schema c) (uq_table c) (uq_name c).
(** changes/view/drop_view_change.rs:15-20 *)
Definition new_drop_view (v : view) : change := DropView (vw_schema v) (vw_name v).
(** changes/column/rename_column_change.rs:15-22; never called by the diff. *)
Definition new_rename_column (c : column) (to : str) : change :=
  RenameColumn (col_schema c) (col_table c) (col_name c) to.

(** ** apply *)

(** The first two lines of every table-level [apply]:
    [source.get_schema_mut(schema)?] and
    [schema.get_relation_mut(table)?.as_table_mut()?]. *)
Definition in_table {A} (s t : str) (k : mut table A) : mut database A :=
  with_schema_mut s (with_relation_mut t (with_table_mut k)).

(** Column built by changes/column/add_column_change.rs:33-40 and
    changes/table/create_table_change.rs:49-56. *)
Definition make_column (s t : str) (c : create_table_column) : column :=
  Column s t (cc_name c) (cc_type c) (cc_notnull c) (cc_default c).

(** [column.data_type = ..], alter_column_set_data_type_change.rs:29 *)
Definition col_set_type (v : str) (c : column) : column :=
  Column (col_schema c) (col_table c) (col_name c) v (col_notnull c) (col_default c).
(** [column.default = ..], alter_column_set_default_change.rs:29 *)
Definition col_set_default (v : option str) (c : column) : column :=
  Column (col_schema c) (col_table c) (col_name c) (col_type c) (col_notnull c) v.
(** [column.not_null = ..], alter_column_set_null_change.rs:29 *)
Definition col_set_notnull (v : bool) (c : column) : column :=
  Column (col_schema c) (col_table c) (col_name c) (col_type c) v (col_default c).
(** [column.name = ..], rename_column_change.rs:29 *)
Definition col_set_name (v : str) (c : column) : column :=
  Column (col_schema c) (col_table c) v (col_type c) (col_notnull c) (col_default c).

(** [as_primary_key_mut()?] and the two assignments, alter_primary_key_change.rs:30-35 *)
Definition set_primary_key_deferral (d i : bool) : mut constraint () :=
  fun c => match c with
           | CPrimaryKey p => (CPrimaryKey (PrimaryKey (pk_schema p) (pk_table p) (pk_name p)
                                 (pk_columns p) d i), Ok ())
           | _ => (c, Err (constraint_unexpected c (L "primary key")))
           end.
(** [as_foreign_key_mut()?] and the two assignments, alter_foreign_key_change.rs:29-34 *)
Definition set_foreign_key_deferral (d i : bool) : mut constraint () :=
  fun c => match c with
           | CForeignKey p => (CForeignKey (ForeignKey (fk_schema p) (fk_table p) (fk_name p)
                                 (fk_columns p) (fk_tschema p) (fk_ttable p) (fk_tcolumns p)
                                 (fk_match p) (fk_update p) (fk_delete p) d i), Ok ())
           | _ => (c, Err (constraint_unexpected c (L "foreign key")))
           end.
(** [as_unique_mut()?] and the two assignments, alter_unique_change.rs:30-33 *)
Definition set_unique_deferral (d i : bool) : mut constraint () :=
  fun c => match c with
           | CUnique p => (CUnique (Unique (uq_schema p) (uq_table p) (uq_name p)
                             (uq_columns p) d i), Ok ())
           | _ => (c, Err (constraint_unexpected c (L "unique")))
           end.
(** [as_check_mut()?] and the two assignments, alter_check_change.rs:29-32 *)
Definition set_check_deferral (d i : bool) : mut constraint () :=
  fun c => match c with
           | CCheck p => (CCheck (Check (ck_schema p) (ck_table p) (ck_name p)
                            (ck_expression p) d i), Ok ())
           | _ => (c, Err (constraint_unexpected c (L "check")))
           end.

(** [table.get_constraint(n)?.as_X()?; table.remove_constraint(n)?; Ok(())] in the four
    Drop<Constraint>Change::apply functions. *)
Definition drop_constraint {A} (as_kind : constraint -> result A) (n : str) : mut table () :=
  let? _ := mread (fun t => rbind (get_constraint t n) as_kind) in
  let? _ := remove_constraint n in
  mok ().

(** [schema.get_relation(n)?.as_X()?; schema.remove_relation(n)?; Ok(())] in
    DropIndex/DropSequence/DropViewChange::apply. *)
Definition drop_relation {A} (as_kind : relation -> result A) (n : str) : mut schema () :=
  let? _ := mread (fun s => rbind (get_relation s n) as_kind) in
  let? _ := remove_relation n in
  mok ().

(** changes/table/create_table_change.rs:46-60: the fresh table is filled first, then
    added to the schema. *)
Definition create_table_in (s t : str) (cols : list create_table_column) : mut schema () :=
  fun sc =>
    match mfor (fun c => add_column (make_column s t c)) cols (table_new s t) with
    | (tb, Ok _) => add_relation (RTable tb) sc
    | (_, Err e) => (sc, Err e)
    end.

(** changes/index/create_index_change.rs:33-43 *)
Definition create_index_in (s t i : str) (u : bool) (m : str) (ks : list str) : mut schema () :=
  let? tb := mread (fun sc => rbind (get_relation sc t) as_table) in
  add_relation (RIndex (Index s i (tb_name tb) u m ks)).

(** changes/column/rename_column_change.rs:27-30 *)
Definition rename_column_in (from to : str) : mut table () :=
  let? c := remove_column from in
  add_column (col_set_name to c).

(** src/snapshot/changes/mod.rs:38-42 dispatching to [X::apply] of each change:
    changes/<kind>/<change>.rs, function [apply]. *)
Definition apply (c : change) : mut database () :=
  match c with
  | AddCheck s t n e d i =>
      in_table s t (add_constraint (CCheck (Check s t n e d i)))
  | AddColumn s t n ty nn df =>
      in_table s t (add_column (Column s t n ty nn df))
  | AddForeignKey s t n cs tsc ttb tcs m u dl d i =>
      in_table s t (add_constraint (CForeignKey (ForeignKey s t n cs tsc ttb tcs m u dl d i)))
  | AddPrimaryKey s t n cs d i =>
      in_table s t (add_constraint (CPrimaryKey (PrimaryKey s t n cs d i)))
  | AddUnique s t n cs d i =>
      in_table s t (add_constraint (CUnique (Unique s t n cs d i)))
  | AlterCheck s t n d i =>
      in_table s t (with_constraint_mut n (set_check_deferral d i))
  | AlterColumnSetDataType s t n v =>
      in_table s t (with_column_mut n (col_set_type v))
  | AlterColumnSetDefault s t n v =>
      in_table s t (with_column_mut n (col_set_default v))
  | AlterColumnSetNotNull s t n v =>
      in_table s t (with_column_mut n (col_set_notnull v))
  | AlterForeignKey s t n d i =>
      in_table s t (with_constraint_mut n (set_foreign_key_deferral d i))
  | AlterPrimaryKey s t n d i =>
      in_table s t (with_constraint_mut n (set_primary_key_deferral d i))
  | AlterUnique s t n d i =>
      in_table s t (with_constraint_mut n (set_unique_deferral d i))
  | CreateFunction s f b l r v =>
      with_schema_mut s (add_function (Function s f b l r v))
  | CreateIndex s t i u m ks =>
      with_schema_mut s (create_index_in s t i u m ks)
  | CreateSchema s => add_schema (schema_new s)
  | CreateSequence s n ty inc mn mx st ca cy =>
      with_schema_mut s (add_relation (RSequence (Sequence s n ty inc mn mx st ca cy None None)))
  | CreateTable s t cols => with_schema_mut s (create_table_in s t cols)
  | CreateView s v q => with_schema_mut s (add_relation (RView (View s v q)))
  | DropCheck s t n => in_table s t (drop_constraint as_check n)
  | DropColumn s t n => in_table s t (let? _ := remove_column n in mok ())
  | DropForeignKey s t n => in_table s t (drop_constraint as_foreign_key n)
  | DropFunction s f => with_schema_mut s (let? _ := remove_function f in mok ())
  | DropIndex s i => with_schema_mut s (drop_relation as_index i)
  | DropPrimaryKey s t n => in_table s t (drop_constraint as_primary_key n)
  | DropSchema s => let? _ := remove_schema s in mok ()
  | DropSequence s n => with_schema_mut s (drop_relation as_sequence n)
  | DropTable s t => with_schema_mut s (let? _ := remove_relation t in mok ())
  | DropUnique s t n => in_table s t (drop_constraint as_unique n)
  | DropView s v => with_schema_mut s (drop_relation as_view v)
  | RenameColumn s t from to => in_table s t (rename_column_in from to)
  end.

(** Applying changes one after the other, stopping at the first error
    (e.g. src/history/snapshot.rs:12-17, src/cmd/stage.rs). *)
Definition apply_all (cs : list change) : mut database () := mfor apply cs.

(** ** revert *)

(** [db.get_schema(s)?.get_relation(t)?.as_table()?]: the schema and the table. *)
Definition look_table (d : database) (s t : str) : result (schema * table) :=
  let! sc := get_schema d s in
  let! r := get_relation sc t in
  let! tb := as_table r in
  Ok (sc, tb).

(** src/snapshot/changes/mod.rs:48-52 dispatching to [X::revert] of each change:
    changes/<kind>/<change>.rs, function [revert]. *)
Definition revert (c : change) (d : database) : result change :=
  match c with
  | AddCheck s t n _ _ _ =>
      let! (sc, tb) := look_table d s t in Ok (DropCheck (sc_name sc) (tb_name tb) n)
  | AddColumn s t n _ _ _ =>
      let! (sc, tb) := look_table d s t in Ok (DropColumn (sc_name sc) (tb_name tb) n)
  | AddForeignKey s t n _ _ _ _ _ _ _ _ _ =>
      let! (sc, tb) := look_table d s t in Ok (DropForeignKey (sc_name sc) (tb_name tb) n)
  | AddPrimaryKey s t n _ _ _ =>
      let! (sc, tb) := look_table d s t in Ok (DropPrimaryKey (sc_name sc) (tb_name tb) n)
  | AddUnique s t n _ _ _ =>
      let! (sc, tb) := look_table d s t in Ok (DropUnique (sc_name sc) (tb_name tb) n)
  | AlterCheck s t n _ _ =>
      let! (sc, tb) := look_table d s t in
      let! c := get_constraint tb n in let! c := as_check c in
      Ok (AlterCheck (sc_name sc) (tb_name tb) (ck_name c) (ck_deferrable c) (ck_initially c))
  | AlterColumnSetDataType s t n _ =>
      let! (sc, tb) := look_table d s t in
      let! c := get_column tb n in
      Ok (AlterColumnSetDataType (sc_name sc) (tb_name tb) (col_name c) (col_type c))
  | AlterColumnSetDefault s t n _ =>
      let! (sc, tb) := look_table d s t in
      let! c := get_column tb n in
      Ok (AlterColumnSetDefault (sc_name sc) (tb_name tb) (col_name c) (col_default c))
  | AlterColumnSetNotNull s t n _ =>
      let! (sc, tb) := look_table d s t in
      let! c := get_column tb n in
      Ok (AlterColumnSetNotNull (sc_name sc) (tb_name tb) (col_name c) (col_notnull c))
  | AlterForeignKey s t n _ _ =>
      let! (sc, tb) := look_table d s t in
      let! c := get_constraint tb n in let! c := as_foreign_key c in
      Ok (AlterForeignKey (sc_name sc) (tb_name tb) (fk_name c) (fk_deferrable c) (fk_initially c))
  | AlterPrimaryKey s t n _ _ =>
      let! (sc, tb) := look_table d s t in
      let! c := get_constraint tb n in let! c := as_primary_key c in
      Ok (AlterPrimaryKey (sc_name sc) (tb_name tb) (pk_name c) (pk_deferrable c) (pk_initially c))
  | AlterUnique s t n _ _ =>
      let! (sc, tb) := look_table d s t in
      let! c := get_constraint tb n in let! c := as_unique c in
      Ok (AlterUnique (sc_name sc) (tb_name tb) (uq_name c) (uq_deferrable c) (uq_initially c))
  | CreateFunction s f _ _ _ _ =>
      let! sc := get_schema d s in Ok (DropFunction (sc_name sc) f)
  | CreateIndex s _ i _ _ _ =>
      let! sc := get_schema d s in Ok (DropIndex (sc_name sc) i)
  | CreateSchema s => Ok (DropSchema s)
  | CreateSequence s n _ _ _ _ _ _ _ =>
      let! sc := get_schema d s in Ok (DropSequence (sc_name sc) n)
  | CreateTable s t _ =>
      let! sc := get_schema d s in Ok (DropTable (sc_name sc) t)
  | CreateView s v _ =>
      let! sc := get_schema d s in Ok (DropView (sc_name sc) v)
  | DropCheck s t n =>
      let! (sc, tb) := look_table d s t in
      let! c := get_constraint tb n in let! c := as_check c in
      Ok (AddCheck s t n (ck_expression c) (ck_deferrable c) (ck_initially c))
  | DropColumn s t n =>
      let! (sc, tb) := look_table d s t in
      let! c := get_column tb n in
      Ok (AddColumn (sc_name sc) (tb_name tb) (col_name c) (col_type c) (col_notnull c)
            (col_default c))
  | DropForeignKey s t n =>
      let! (sc, tb) := look_table d s t in
      let! c := get_constraint tb n in let! c := as_foreign_key c in
      Ok (AddForeignKey (sc_name sc) (tb_name tb) (fk_name c) (fk_columns c) (fk_tschema c)
            (fk_ttable c) (fk_tcolumns c) (fk_match c) (fk_update c) (fk_delete c)
            (fk_deferrable c) (fk_initially c))
  | DropFunction s f =>
      let! sc := get_schema d s in
      let! fn := get_function sc f in
      Ok (CreateFunction (sc_name sc) f (fn_body fn) (fn_language fn) (fn_returns fn)
            (fn_volatility fn))
  | DropIndex s i =>
      let! sc := get_schema d s in
      let! r := get_relation sc i in let! ix := as_index r in
      Ok (CreateIndex (sc_name sc) (ix_table ix) (ix_name ix) (ix_unique ix) (ix_method ix)
            (ix_keys ix))
  | DropPrimaryKey s t n =>
      let! (sc, tb) := look_table d s t in
      let! c := get_constraint tb n in let! c := as_primary_key c in
      Ok (AddPrimaryKey (sc_name sc) (tb_name tb) (pk_name c) (pk_columns c)
            (pk_deferrable c) (pk_initially c))
  | DropSchema s => Ok (CreateSchema s)
  | DropSequence s n =>
      let! sc := get_schema d s in
      let! r := get_relation sc n in let! sq := as_sequence r in
      Ok (new_create_sequence sq)
  | DropTable s t =>
      let! (sc, tb) := look_table d s t in Ok (new_create_table tb)
  | DropUnique s t n =>
      let! (sc, tb) := look_table d s t in
      let! c := get_constraint tb n in let! c := as_unique c in
      Ok (AddUnique (sc_name sc) (tb_name tb) (uq_name c) (uq_columns c)
            (uq_deferrable c) (uq_initially c))
  | DropView s v =>
      let! sc := get_schema d s in
      let! r := get_relation sc v in let! vw := as_view r in
      Ok (CreateView s v (vw_query vw))
  | RenameColumn s t from to =>
      let! (sc, tb) := look_table d s t in
      let! c := get_column tb to in
      Ok (RenameColumn (sc_name sc) (tb_name tb) (col_name c) from)
  end.

(** The loop of src/cmd/stage.rs:25-39 as far as snapshots are concerned: each change is
    reverted against the state it is about to be applied to ([None] is the [unwrap] panic
    of line 33 or the error return of line 34).  The reverts are listed in application
    order; the commands model keeps them in the order of [add_down]. *)
Fixpoint collect_reverts (cs : list change) (d : database) : option (list change) :=
  match cs with
  | [] => Some []
  | c :: cs =>
      match revert c d, apply c d with
      | Ok r, (d1, Ok _) => (fun rs => r :: rs) <$> collect_reverts cs d1
      | _, _ => None
      end
  end.
