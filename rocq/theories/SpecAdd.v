(** Specification vocabulary: differences that only add. *)
From Verif Require Import Base Text Types Changes SpecSnapshot SpecSql SpecLex SpecStatement SpecServer SpecSpelled SpecAccept SpecNull.

(** Everything in the first snapshot is in the second one as it is; functions are the same. *)
Definition only_adds (s t : database) : Prop :=
  (forall n, is_Some (db_schemas s !! n) -> is_Some (db_schemas t !! n)) /\
  (forall n f, function_at t n f = function_at s n f) /\
  (forall n k r, relation_at s n k = Some r -> is_table (Some r) \/ relation_at t n k = Some r) /\
  (forall n k, table_at s n k -> table_at t n k) /\
  (forall n k x c, column_at s n k x = Some c -> column_at t n k x = Some c) /\
  (forall n k x c, constraint_at s n k x = Some c -> constraint_at t n k x = Some c).

(** The names of keys are not used otherwise in the schema, a table has one primary key, and
    the columns of a key are columns of the table, each once. *)
Definition keys_fit (t : database) : Prop :=
  (forall n k x c, constraint_at t n k x = Some c -> key_columns c <> None ->
     relation_at t n x = None /\
     forall k' c', constraint_at t n k' x = Some c' -> key_columns c' <> None -> k' = k) /\
  (forall n k x y p q, constraint_at t n k x = Some (CPrimaryKey p) -> constraint_at t n k y = Some (CPrimaryKey q) -> x = y) /\
  (forall n k x c cs, constraint_at t n k x = Some c -> key_columns c = Some cs -> columns_exist t n k cs).

(** What is new can be said: schemas with simple names, indexes with keys, and keys and checks
    as in [constraint_creatable]. *)
Definition new_sayable (s t : database) : Prop :=
  (forall n, db_schemas s !! n = None -> is_Some (db_schemas t !! n) -> simple_name n) /\
  (forall n k i, relation_at s n k = None -> relation_at t n k = Some (RIndex i) -> ix_keys i <> []) /\
  (forall n k x c, constraint_at s n k x = None -> constraint_at t n k x = Some c -> constraint_creatable c).

(** New schemas do not have the names of system schemas, and the values of new sequences fit. *)
Definition new_valid (s t : database) : Prop :=
  (forall n, db_schemas s !! n = None -> is_Some (db_schemas t !! n) -> starts_with (L "pg_") n = false) /\
  (forall n k q, relation_at s n k = None -> relation_at t n k = Some (RSequence q) ->
     exists m, sequence_meant (sq_type q) (sq_increment q) (sq_min q) (sq_max q) (sq_start q) (sq_cache q) (sq_cycle q) = Some m /\
       valid_sequence m = true).

(** ** Taking additions back *)

(** What a snapshot refers to is in it. *)
Definition self_contained (s : database) : Prop :=
  (forall n k x c, constraint_at s n k x = Some c ->
     Forall (fun y => is_Some (column_at s n k y)) (constrained_columns c)) /\
  (forall n k x f, constraint_at s n k x = Some (CForeignKey f) ->
     table_at s (fk_tschema f) (fk_ttable f) /\
     Forall (fun y => is_Some (column_at s (fk_tschema f) (fk_ttable f) y)) (fk_tcolumns f)) /\
  (forall n k i, relation_at s n k = Some (RIndex i) -> table_at s n (ix_table i)) /\
  (forall n k q t x, relation_at s n k = Some (RSequence q) -> owner_meant q = Some (t, x) ->
     is_Some (column_at s n t x)).

(** New columns of old tables are not in old checks, nor in indexes; old foreign keys do not
    refer to the columns of new keys. *)
Definition new_unused (s t : database) : Prop :=
  (forall n k x, table_at s n k -> column_at s n k x = None -> is_Some (column_at t n k x) ->
     ~ checked s n k (fun e => mentions x e = true) /\ ~ indexed_by t n k (fun e => mentions x e = true)) /\
  (forall n k x c cs, constraint_at s n k x = None -> constraint_at t n k x = Some c -> key_columns c = Some cs ->
     ~ referenced s None n k (same_set cs)).

(** Old columns of new primary keys were NOT NULL before. *)
Definition old_nulls_kept (s t : database) : Prop :=
  forall n k x c, column_at s n k x = Some c -> key_added s t n k x -> col_notnull c = true.
