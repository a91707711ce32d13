(** compare_diff: src/snapshot/diff.rs.  [os]/[ot] give the iteration orders of the
    hash maps of the source and the target. *)
From Verif Require Import Base Types Changes.

(** Comparison of Rust values with [!=]. *)
Definition neqb {A} `{EqDecision A} (x y : A) : bool := negb (bool_decide (x = y)).

(** diff.rs:208-214 *)
Definition diff_column_create (t : column) : list change := [new_add_column t].

(** diff.rs:216-230 *)
Definition diff_column_update (s t : column) : list change :=
  (if neqb (col_type s) (col_type t) then [new_alter_data_type t] else []) ++
  (if neqb (col_default s) (col_default t) then [new_alter_default t] else []) ++
  (if neqb (col_notnull s) (col_notnull t) then [new_alter_not_null t] else []).

(** diff.rs:232-238 *)
Definition diff_column_drop (s : column) : list change := [new_drop_column s].

(** diff.rs:271-275 *)
Definition diff_primary_key_create (t : primary_key) : list change := [new_add_primary_key t].
(** diff.rs:277-288 *)
Definition diff_primary_key_update (s t : primary_key) : list change :=
  if neqb (pk_columns s) (pk_columns t)
  then [new_drop_primary_key s; new_add_primary_key t]
  else if neqb (pk_deferrable s) (pk_deferrable t) || neqb (pk_initially s) (pk_initially t)
  then [new_alter_primary_key t]
  else [].
(** diff.rs:290-300 *)
Definition diff_primary_key_drop (s : primary_key) : list change :=
  [DropPrimaryKey (pk_schema s) (pk_table s) (pk_name s)].

(** diff.rs:302-308 *)
Definition diff_unique_create (t : unique) : list change := [new_add_unique t].
(** diff.rs:310-321 *)
Definition diff_unique_update (s t : unique) : list change :=
  if neqb (uq_columns s) (uq_columns t)
  then [new_drop_unique s; new_add_unique t]
  else if neqb (uq_deferrable s) (uq_deferrable t) || neqb (uq_initially s) (uq_initially t)
  then [new_alter_unique t]
  else [].
(** diff.rs:323-333 *)
Definition diff_unique_drop (s : unique) : list change :=
  [DropUnique (uq_schema s) (uq_table s) (uq_name s)].

(** diff.rs:335-339 *)
Definition diff_foreign_key_create (t : foreign_key) : list change := [new_add_foreign_key t].
(** diff.rs:341-359 *)
Definition diff_foreign_key_update (s t : foreign_key) : list change :=
  if neqb (fk_columns s) (fk_columns t)
     || neqb (fk_tschema s) (fk_tschema t)
     || neqb (fk_ttable s) (fk_ttable t)
     || neqb (fk_tcolumns s) (fk_tcolumns t)
     || neqb (fk_match s) (fk_match t)
     || neqb (fk_update s) (fk_update t)
     || neqb (fk_delete s) (fk_delete t)
  then [new_drop_foreign_key s; new_add_foreign_key t]
  else if neqb (fk_deferrable s) (fk_deferrable t) || neqb (fk_initially s) (fk_initially t)
  then [new_alter_foreign_key t]
  else [].
(** diff.rs:361-365 *)
Definition diff_foreign_key_drop (s : foreign_key) : list change := [new_drop_foreign_key s].

(** diff.rs:367-371 *)
Definition diff_check_create (t : check) : list change := [new_add_check t].
(** diff.rs:373-384 *)
Definition diff_check_update (s t : check) : list change :=
  if neqb (ck_expression s) (ck_expression t)
  then [new_drop_check s; new_add_check t]
  else if neqb (ck_deferrable s) (ck_deferrable t) || neqb (ck_initially s) (ck_initially t)
  then [new_alter_check t]
  else [].
(** diff.rs:386-390 *)
Definition diff_check_drop (s : check) : list change := [new_drop_check s].

(** diff.rs:240-247 *)
Definition diff_constraint_create (t : constraint) : list change :=
  match t with
  | CPrimaryKey t => diff_primary_key_create t
  | CUnique t => diff_unique_create t
  | CForeignKey t => diff_foreign_key_create t
  | CCheck t => diff_check_create t
  end.
(** diff.rs:262-269 *)
Definition diff_constraint_drop (s : constraint) : list change :=
  match s with
  | CPrimaryKey s => diff_primary_key_drop s
  | CUnique s => diff_unique_drop s
  | CForeignKey s => diff_foreign_key_drop s
  | CCheck s => diff_check_drop s
  end.
(** diff.rs:248-261 *)
Definition diff_constraint_update (s t : constraint) : list change :=
  match s, t with
  | CPrimaryKey s, CPrimaryKey t => diff_primary_key_update s t
  | CUnique s, CUnique t => diff_unique_update s t
  | CForeignKey s, CForeignKey t => diff_foreign_key_update s t
  | CCheck s, CCheck t => diff_check_update s t
  | _, _ => diff_constraint_drop s ++ diff_constraint_create t
  end.

(** diff.rs:392-396 *)
Definition diff_view_create (t : view) : list change := [new_create_view t].
(** diff.rs:398-407 *)
Definition diff_view_update (s t : view) : list change :=
  if neqb (vw_query s) (vw_query t) then [new_drop_view s; new_create_view t] else [].
(** diff.rs:409-413 *)
Definition diff_view_drop (s : view) : list change := [new_drop_view s].

(** diff.rs:415-419 *)
Definition diff_function_create (t : function) : list change := [new_create_function t].
(** diff.rs:421-434 *)
Definition diff_function_update (s t : function) : list change :=
  if neqb (fn_body s) (fn_body t)
     || neqb (fn_language s) (fn_language t)
     || neqb (fn_returns s) (fn_returns t)
     || neqb (fn_volatility s) (fn_volatility t)
  then [new_drop_function s; new_create_function t]
  else [].
(** diff.rs:436-440 *)
Definition diff_function_drop (s : function) : list change := [new_drop_function s].

(** diff.rs:442-446 *)
Definition diff_index_create (t : index) : list change := [new_create_index t].
(** diff.rs:448-457 *)
Definition diff_index_update (s t : index) : list change :=
  if neqb (ix_keys s) (ix_keys t) then [new_drop_index s; new_create_index t] else [].
(** diff.rs:459-463 *)
Definition diff_index_drop (s : index) : list change := [new_drop_index s].

(** diff.rs:465-469 *)
Definition diff_sequence_create (t : sequence) : list change := [new_create_sequence t].
(** diff.rs:471-489 *)
Definition diff_sequence_update (s t : sequence) : list change :=
  if neqb (sq_type s) (sq_type t)
     || neqb (sq_increment s) (sq_increment t)
     || neqb (sq_min s) (sq_min t)
     || neqb (sq_max s) (sq_max t)
     || neqb (sq_start s) (sq_start t)
     || neqb (sq_cache s) (sq_cache t)
     || neqb (sq_cycle s) (sq_cycle t)
     || neqb (sq_owned_table s) (sq_owned_table t)
     || neqb (sq_owned_column s) (sq_owned_column t)
  then [new_drop_sequence s; new_create_sequence t]
  else [].
(** diff.rs:491-495 *)
Definition diff_sequence_drop (s : sequence) : list change := [new_drop_sequence s].

(** diff.rs:151-162 *)
Definition diff_table_create (ot : iter_order) (t : table) : list change :=
  new_create_table t :: (iter_constraints ot t ≫= diff_constraint_create).

(** Body of the first loop, diff.rs:168-175 *)
Definition diff_table_column (s : table) (ti : column) : list change :=
  match find_column (col_name ti) (tb_columns s) with
  | Some si => diff_column_update si ti
  | None => diff_column_create ti
  end.
(** Body of the second loop, diff.rs:176-180 *)
Definition diff_table_column_drop (t : table) (si : column) : list change :=
  if has_column t (col_name si) then [] else diff_column_drop si.
(** Body of the third loop, diff.rs:183-190 *)
Definition diff_table_constraint (s : table) (ti : constraint) : list change :=
  match tb_constraints s !! constraint_name ti with
  | Some si => diff_constraint_update si ti
  | None => diff_constraint_create ti
  end.
(** Body of the fourth loop, diff.rs:191-195 *)
Definition diff_table_constraint_drop (t : table) (si : constraint) : list change :=
  if has_constraint t (constraint_name si) then [] else diff_constraint_drop si.

(** diff.rs:164-198 *)
Definition diff_table_update (os ot : iter_order) (s t : table) : list change :=
  (tb_columns t ≫= diff_table_column s) ++
  (tb_columns s ≫= diff_table_column_drop t) ++
  (iter_constraints ot t ≫= diff_table_constraint s) ++
  (iter_constraints os s ≫= diff_table_constraint_drop t).

(** diff.rs:200-206 *)
Definition diff_table_drop (s : table) : list change := [new_drop_table s].

(** diff.rs:108-115 *)
Definition diff_relation_create (ot : iter_order) (t : relation) : list change :=
  match t with
  | RTable t => diff_table_create ot t
  | RView t => diff_view_create t
  | RSequence t => diff_sequence_create t
  | RIndex t => diff_index_create t
  end.
(** diff.rs:142-149 *)
Definition diff_relation_drop (s : relation) : list change :=
  match s with
  | RTable s => diff_table_drop s
  | RView s => diff_view_drop s
  | RSequence s => diff_sequence_drop s
  | RIndex s => diff_index_drop s
  end.
(** diff.rs:117-140 *)
Definition diff_relation_update (os ot : iter_order) (s t : relation) : list change :=
  match s, t with
  | RTable s, RTable t => diff_table_update os ot s t
  | RView s, RView t => diff_view_update s t
  | RSequence s, RSequence t => diff_sequence_update s t
  | RIndex s, RIndex t => diff_index_update s t
  | _, _ => diff_relation_drop s ++ diff_relation_create ot t
  end.

(** diff.rs:44-57 *)
Definition diff_schema_create (ot : iter_order) (t : schema) : list change :=
  new_create_schema t ::
  (iter_relations ot t ≫= diff_relation_create ot) ++
  (iter_functions ot t ≫= diff_function_create).

(** Bodies of the four loops, diff.rs:62-66, 67-74, 76-80, 81-88 *)
Definition diff_schema_relation_new (ot : iter_order) (s : schema) (ti : relation) :=
  if has_relation s (relation_name ti) then [] else diff_relation_create ot ti.
Definition diff_schema_relation_old (os ot : iter_order) (t : schema) (si : relation) :=
  match sc_relations t !! relation_name si with
  | Some ti => diff_relation_update os ot si ti
  | None => diff_relation_drop si
  end.
Definition diff_schema_function_new (s : schema) (ti : function) :=
  if has_function s (fn_name ti) then [] else diff_function_create ti.
Definition diff_schema_function_old (t : schema) (si : function) :=
  match sc_functions t !! fn_name si with
  | Some ti => diff_function_update si ti
  | None => diff_function_drop si
  end.

(** diff.rs:59-91 *)
Definition diff_schema_update (os ot : iter_order) (s t : schema) : list change :=
  (iter_relations ot t ≫= diff_schema_relation_new ot s) ++
  (iter_relations os s ≫= diff_schema_relation_old os ot t) ++
  (iter_functions ot t ≫= diff_schema_function_new s) ++
  (iter_functions os s ≫= diff_schema_function_old t).

(** diff.rs:93-106 *)
Definition diff_schema_drop (os : iter_order) (s : schema) : list change :=
  (iter_relations os s ≫= diff_relation_drop) ++
  (iter_functions os s ≫= diff_function_drop) ++
  [new_drop_schema s].

(** Bodies of the two loops, diff.rs:27-31, 32-39 *)
Definition diff_database_new (ot : iter_order) (s : database) (ti : schema) :=
  if has_schema s (sc_name ti) then [] else diff_schema_create ot ti.
Definition diff_database_old (os ot : iter_order) (t : database) (si : schema) :=
  match db_schemas t !! sc_name si with
  | Some ti => diff_schema_update os ot si ti
  | None => diff_schema_drop os si
  end.

(** diff.rs:24-42 *)
Definition diff_database_update (os ot : iter_order) (s t : database) : list change :=
  (iter_schemas ot t ≫= diff_database_new ot s) ++
  (iter_schemas os s ≫= diff_database_old os ot t).

(** diff.rs:20-22 *)
Definition compare_diff (os ot : iter_order) (s t : database) : list change :=
  diff_database_update os ot s t.
