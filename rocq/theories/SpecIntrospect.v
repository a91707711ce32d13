(** Specification of loading a snapshot from the rows of the catalogue queries. *)
From Verif Require Import Base Types Changes SpecSnapshot Diff Sql History Catalog Introspect.

(** ** The objects that the rows describe *)
Record objects := Objects {
  ob_schemas : list str;
  ob_sequences : list sequence;
  ob_tables : list (str * str);
  ob_columns : list column;
  ob_primary_keys : list primary_key;
  ob_foreign_keys : list foreign_key;
  ob_functions : list function;
  ob_uniques : list unique;
  ob_checks : list check;
  ob_indexes : list index }.

Definition ob_constraints (b : objects) : list constraint :=
  (CPrimaryKey <$> ob_primary_keys b) ++ (CForeignKey <$> ob_foreign_keys b) ++
  (CUnique <$> ob_uniques b) ++ (CCheck <$> ob_checks b).

(** ** Rows

    The row that describes an object: one cell for each column of the query.  Some
    columns do not matter for the snapshot and may hold anything of the right type. *)
Definition cell_of_option (s : option str) : cell :=
  match s with Some s => Text s | None => Null end.

Definition schema_row (n : str) : row := [Text n].

Definition sequence_row (s : sequence) : row :=
  [Text (sq_schema s); Text (sq_name s); Text (sq_type s); Int (sq_increment s); Int (sq_min s);
   Int (sq_max s); Int (sq_start s); Int (sq_cache s); Bool (sq_cycle s);
   cell_of_option (sq_owned_table s); cell_of_option (sq_owned_column s)].

Definition table_row (t : str * str) : row := [Text (t.1); Text (t.2)].

(** The query shows an absent default as an empty text. *)
Inductive column_row : column -> row -> Prop :=
  | column_row_default s t n ty nn d num :
      d <> [] ->
      column_row (Column s t n ty nn (Some d)) [Text s; Text t; Int num; Text n; Text d; Bool nn; Text ty]
  | column_row_plain s t n ty nn num :
      column_row (Column s t n ty nn None) [Text s; Text t; Int num; Text n; Text []; Bool nn; Text ty].

Inductive primary_key_row : primary_key -> row -> Prop :=
  | primary_key_row_intro s t n cs d i ts :
      primary_key_row (PrimaryKey s t n cs d i) [Text s; Text n; Text ts; Text t; Texts cs; Bool d; Bool i].

Inductive unique_row : unique -> row -> Prop :=
  | unique_row_intro s t n cs d i ts :
      unique_row (Unique s t n cs d i) [Text s; Text n; Text ts; Text t; Texts cs; Bool d; Bool i].

Definition foreign_key_row (f : foreign_key) : row :=
  [Text (fk_schema f); Text (fk_name f); Text (fk_table f); Texts (fk_columns f);
   Text (fk_tschema f); Text (fk_ttable f); Texts (fk_tcolumns f); Bool (fk_deferrable f);
   Bool (fk_initially f); Text (fk_match f); Text (fk_update f); Text (fk_delete f)].

Definition function_row (f : function) : row :=
  [Text (fn_schema f); Text (fn_name f); Text (fn_body f); Text (fn_language f);
   Text (fn_returns f); Text (fn_volatility f)].

Definition check_row (k : check) : row :=
  [Text (ck_schema k); Text (ck_table k); Text (ck_name k); Text (ck_expression k);
   Bool (ck_deferrable k); Bool (ck_initially k)].

(** An index on columns has the names of the columns as keys; an index with expressions
    has one key, the expressions. *)
Inductive index_row : index -> row -> Prop :=
  | index_row_columns s n t u m ks len os :
      index_row (Index s n t u m ks)
        [Text s; Text n; Text t; Bool u; Text m; Int len; Texts ks; Ints os; Null]
  | index_row_expressions s n t u m e len ks os :
      ks = Null \/ (exists l, ks = Texts l) ->
      index_row (Index s n t u m [e])
        [Text s; Text n; Text t; Bool u; Text m; Int len; ks; Ints os; Text e].

(** The results of the queries describe the objects. *)
Record described (b : objects) (q : results) : Prop := Described {
  de_schemas : rs_schemas q = Some (schema_row <$> ob_schemas b);
  de_sequences : rs_sequences q = Some (sequence_row <$> ob_sequences b);
  de_tables : rs_tables q = Some (table_row <$> ob_tables b);
  de_columns : exists l, rs_columns q = Some l /\ Forall2 column_row (ob_columns b) l;
  de_primary_keys : exists l, rs_primary_keys q = Some l /\ Forall2 primary_key_row (ob_primary_keys b) l;
  de_foreign_keys : rs_foreign_keys q = Some (foreign_key_row <$> ob_foreign_keys b);
  de_functions : rs_functions q = Some (function_row <$> ob_functions b);
  de_uniques : exists l, rs_uniques q = Some l /\ Forall2 unique_row (ob_uniques b) l;
  de_checks : rs_checks q = Some (check_row <$> ob_checks b);
  de_indexes : exists l, rs_indexes q = Some l /\ Forall2 index_row (ob_indexes b) l }.

(** ** Neither duplicates nor orphans *)
Definition relation_names (b : objects) : list (str * str) :=
  ((fun s => (sq_schema s, sq_name s)) <$> ob_sequences b) ++ ob_tables b ++
  ((fun i => (ix_schema i, ix_name i)) <$> ob_indexes b).
Definition column_place (c : column) : str * str := (col_schema c, col_table c).
Definition constraint_place (c : constraint) : str * str := (constraint_schema c, constraint_table c).
Definition function_name (f : function) : str * str := (fn_schema f, fn_name f).

Record coherent (b : objects) : Prop := Coherent {
  co_schemas : NoDup (ob_schemas b);
  co_relations : NoDup (relation_names b);
  co_columns : NoDup ((fun c => (column_place c, col_name c)) <$> ob_columns b);
  co_constraints : NoDup ((fun c => (constraint_place c, constraint_name c)) <$> ob_constraints b);
  co_functions : NoDup (function_name <$> ob_functions b);
  co_relation_schema : forall x, x ∈ relation_names b -> x.1 ∈ ob_schemas b;
  co_function_schema : forall f, f ∈ ob_functions b -> fn_schema f ∈ ob_schemas b;
  co_column_table : forall c, c ∈ ob_columns b -> column_place c ∈ ob_tables b;
  co_constraint_table : forall c, c ∈ ob_constraints b -> constraint_place c ∈ ob_tables b }.

(** ** The snapshot holds the objects, and no others *)
Record holds_exactly (b : objects) (d : database) : Prop := HoldsExactly {
  ho_wf : wf_db d;
  ho_schema : forall n, is_Some (db_schemas d !! n) <-> n ∈ ob_schemas b;
  ho_sequence : forall n k s, relation_at d n k = Some (RSequence s) <->
    s ∈ ob_sequences b /\ sq_schema s = n /\ sq_name s = k;
  ho_index : forall n k i, relation_at d n k = Some (RIndex i) <->
    i ∈ ob_indexes b /\ ix_schema i = n /\ ix_name i = k;
  ho_table : forall n k, table_at d n k <-> (n, k) ∈ ob_tables b;
  ho_view : forall n k v, relation_at d n k <> Some (RView v);
  (** in the order of the rows *)
  ho_columns : forall n k t, relation_at d n k = Some (RTable t) ->
    tb_columns t = filter (fun c => column_place c = (n, k)) (ob_columns b);
  ho_constraint : forall n k c x, constraint_at d n k c = Some x <->
    x ∈ ob_constraints b /\ constraint_place x = (n, k) /\ constraint_name x = c;
  ho_function : forall n k f, function_at d n k = Some f <->
    f ∈ ob_functions b /\ fn_schema f = n /\ fn_name f = k }.
