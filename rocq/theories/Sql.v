(** SQL text: src/util/sqlfmt.rs and the [render_sql] methods of src/snapshot/changes. *)
From Coq Require Import DecimalZ.
From Verif Require Import Base Text Types Changes.

(** sqlfmt.rs:1-4, sql_qn *)
Definition sql_qn (n : str) : str := L """" ++ n ++ L """".
(** sqlfmt.rs:6-9, sql_qa *)
Definition sql_qa (s r : str) : str := sql_qn s ++ L "." ++ sql_qn r.
(** sqlfmt.rs:23-33, sql_l *)
Definition sql_l (l : list str) : str := join_with (L ", ") l.
(** sqlfmt.rs:11-21, sql_ql *)
Definition sql_ql (l : list str) : str := sql_l (sql_qn <$> l).

(** The decimal digits of a number, most significant first. *)
Fixpoint digits (u : Decimal.uint) : str :=
  match u with
  | Decimal.Nil => []
  | Decimal.D0 u => 48%N :: digits u | Decimal.D1 u => 49%N :: digits u
  | Decimal.D2 u => 50%N :: digits u | Decimal.D3 u => 51%N :: digits u
  | Decimal.D4 u => 52%N :: digits u | Decimal.D5 u => 53%N :: digits u
  | Decimal.D6 u => 54%N :: digits u | Decimal.D7 u => 55%N :: digits u
  | Decimal.D8 u => 56%N :: digits u | Decimal.D9 u => 57%N :: digits u
  end.
(** [Display] of an i64: decimal, with a minus sign when negative (standard library). *)
Definition show_int (z : Z) : str :=
  match Z.to_int z with
  | Decimal.Pos u => digits u
  | Decimal.Neg u => 45%N :: digits u
  end.

(** The two texts of [if self.deferrable {..} else {..}] and
    [if self.initially_deferred {..} else {..}], e.g. check/add_check_change.rs:53-62. *)
Definition sql_deferrable (b : bool) : str := if b then L "DEFERRABLE" else L "NOT DEFERRABLE".
Definition sql_initially (b : bool) : str := if b then L "INITIALLY DEFERRED" else L "INITIALLY IMMEDIATE".

(** column/add_column_change.rs:46-57: the tokens pushed after the first one. *)
Definition add_column_tokens (not_null : bool) (default : option str) : list str :=
  (if negb not_null then [L "NOT NULL"] else []) ++
  match default with Some d => [L "DEFAULT " ++ d] | None => [] end.

(** table/create_table_change.rs:69-78: one column. *)
Definition create_table_column_sql (c : create_table_column) : str :=
  join_with (L " ")
    ([sql_qn (cc_name c); cc_type c] ++
     (if negb (cc_notnull c) then [L "NULL"] else []) ++
     match cc_default c with Some d => [L "DEFAULT " ++ d] | None => [] end).

(** The beginning of most statements: [ALTER TABLE {} ... {}] with the table and a name. *)
Definition alter_table (s t : str) (what : str) (n : str) : str :=
  L "ALTER TABLE " ++ sql_qa s t ++ L " " ++ what ++ L " " ++ sql_qn n.

(** [Change::render_sql], src/snapshot/changes/mod.rs:43-47, and the method of each change. *)
Definition render_sql (c : change) : str :=
  match c with
  | AddCheck s t n e d i => (* check/add_check_change.rs:47-64 *)
      alter_table s t (L "ADD CONSTRAINT") n ++ L " CHECK " ++ e ++ L " " ++
      sql_deferrable d ++ L " " ++ sql_initially i ++ L ";"
  | AddColumn s t n ty nn d => (* column/add_column_change.rs:45-60 *)
      join_with (L " ")
        ((alter_table s t (L "ADD COLUMN") n ++ L " " ++ ty) :: add_column_tokens nn d) ++ L ";"
  | AddForeignKey s t n cs ts t2 tcs m u d _ _ => (* foreignkey/add_foreign_key_change.rs:65-77 *)
      alter_table s t (L "ADD CONSTRAINT") n ++ L " FOREIGN KEY (" ++ sql_ql cs ++
      L ") REFERENCES " ++ sql_qa ts t2 ++ L " (" ++ sql_ql tcs ++ L ") " ++
      m ++ L " " ++ u ++ L " " ++ d ++ L ";"
  | AddPrimaryKey s t n cs d i => (* primarykey/add_primary_key_change.rs:48-65 *)
      alter_table s t (L "ADD CONSTRAINT") n ++ L " PRIMARY KEY (" ++ sql_ql cs ++ L ") " ++
      sql_deferrable d ++ L " " ++ sql_initially i ++ L ";"
  | AddUnique s t n cs d i => (* unique/add_unique_change.rs:46-63 *)
      alter_table s t (L "ADD CONSTRAINT") n ++ L " UNIQUE (" ++ sql_ql cs ++ L ") " ++
      sql_deferrable d ++ L " " ++ sql_initially i ++ L ";"
  | AlterCheck s t n d _ => (* check/alter_check_change.rs:37-48 *)
      alter_table s t (L "ALTER CONSTRAINT") n ++ L " " ++
      (if d then L "DEFERRABLE INITIALLY DEFERRED" else L "NOT DEFERRABLE INITIALLY IMMEDIATE")
  | AlterColumnSetDataType s t n ty => (* column/alter_column_set_data_type_change.rs:33-40 *)
      alter_table s t (L "ALTER COLUMN") n ++ L " SET DATA TYPE " ++ ty ++ L ";"
  | AlterColumnSetDefault s t n d => (* column/alter_column_set_default_change.rs:33-48 *)
      match d with
      | Some d => alter_table s t (L "ALTER COLUMN") n ++ L " SET DEFAULT " ++ d ++ L ";"
      | None => alter_table s t (L "ALTER COLUMN") n ++ L " DROP DEFAULT;"
      end
  | AlterColumnSetNotNull s t n nn => (* column/alter_column_set_null_change.rs:33-47 *)
      if nn then alter_table s t (L "ALTER COLUMN") n ++ L " SET NOT NULL;"
      else alter_table s t (L "ALTER COLUMN") n ++ L " DROP NOT NULL;"
  | AlterForeignKey s t n d _ => (* foreignkey/alter_foreign_key_change.rs:39-50 *)
      alter_table s t (L "ALTER CONSTRAINT") n ++ L " " ++
      (if d then L "DEFERRABLE INITIALLY DEFERRED" else L "NOT DEFERRABLE INITIALLY IMMEDIATE")
  | AlterPrimaryKey s t n d i => (* primarykey/alter_primary_key_change.rs:40-56 *)
      alter_table s t (L "ALTER CONSTRAINT") n ++ L " " ++
      sql_deferrable d ++ L " " ++ sql_initially i ++ L ";"
  | AlterUnique s t n d i => (* unique/alter_unique_change.rs:38-54 *)
      alter_table s t (L "ALTER CONSTRAINT") n ++ L " " ++
      sql_deferrable d ++ L " " ++ sql_initially i ++ L ";"
  | CreateFunction s f body lang ret vol => (* function/create_functon_change.rs:42-51 *)
      L "CREATE FUNCTION " ++ sql_qa s f ++ L " " ++ body ++ L " RETURNS " ++ ret ++
      L " LANGUAGE " ++ lang ++ L " " ++ vol ++ L ";"
  | CreateIndex s t n u m ks => (* index/create_index_change.rs:48-57 *)
      L "CREATE " ++ (if u then L "UNIQUE INDEX" else L "INDEX") ++ L " " ++ sql_qn n ++
      L " ON " ++ sql_qa s t ++ L " USING " ++ m ++ L " (" ++ sql_l ks ++ L ")" ++ L ";"
  | CreateSchema n => L "CREATE SCHEMA " ++ n ++ L ";" (* schema/create_schema_change.rs:22-24 *)
  | CreateSequence s n ty inc mn mx st ca cy => (* sequence/create_sequence_change.rs:59-71 *)
      L "CREATE SEQUENCE " ++ sql_qa s n ++ L " AS " ++ ty ++ L " INCREMENT BY " ++ show_int inc ++
      L " MINVALUE " ++ show_int mn ++ L " MAXVALUE " ++ show_int mx ++ L " START WITH " ++
      show_int st ++ L " CACHE " ++ show_int ca ++ L " " ++
      (if cy then L "CYCLE" else L "NO CYCLE") ++ L ";"
  | CreateTable s t cs => (* table/create_table_change.rs:65-80 *)
      L "CREATE TABLE " ++ sql_qa s t ++ L " (" ++ sql_l (create_table_column_sql <$> cs) ++ L ");"
  | CreateView s v q => (* view/create_view_change.rs:32-38 *)
      L "CREATE VIEW " ++ sql_qa s v ++ L " AS " ++ q
  | DropCheck s t n => (* check/drop_check_change.rs:31-37 *)
      alter_table s t (L "DROP CONSTRAINT") n ++ L ";"
  | DropColumn s t n => (* column/drop_column_change.rs:31-37 *)
      alter_table s t (L "DROP COLUMN") n ++ L ";"
  | DropForeignKey s t n => (* foreignkey/drop_foreign_key_change.rs:31-37 *)
      alter_table s t (L "DROP CONSTRAINT") n
  | DropFunction s f => (* function/drop_function_change.rs:27-29 *)
      L "DROP FUNCTION " ++ sql_qa s f ++ L ";"
  | DropIndex s n => (* index/drop_index_change.rs:29-31 *)
      L "DROP INDEX " ++ sql_qa s n ++ L ";"
  | DropPrimaryKey s t n => (* primarykey/drop_primary_key_change.rs:32-38 *)
      alter_table s t (L "DROP CONSTRAINT") n ++ L ";"
  | DropSchema n => L "DROP SCHEMA " ++ n ++ L ";" (* schema/drop_schema_change.rs:22-24 *)
  | DropSequence s n => (* sequence/drop_sequence_change.rs:29-31 *)
      L "DROP SEQUENCE " ++ sql_qa s n ++ L ";"
  | DropTable s t => (* table/drop_table_change.rs:29-31 *)
      L "DROP TABLE " ++ sql_qa s t ++ L ";"
  | DropUnique s t n => (* unique/drop_unique_change.rs:32-38 *)
      alter_table s t (L "DROP CONSTRAINT") n ++ L ";"
  | DropView s v => (* view/drop_view_change.rs:29-31 *)
      L "DROP VIEW " ++ sql_qa s v
  | RenameColumn s t n n' => (* column/rename_column_change.rs:35-42 *)
      alter_table s t (L "RENAME COLUMN") n ++ L " TO " ++ sql_qn n' ++ L ";"
  end.
