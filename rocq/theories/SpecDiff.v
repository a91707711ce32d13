(** Specification of what a diff run produces. *)
From Verif Require Import Base Types Changes SpecSnapshot SpecChange.

(** ** When index creation is safe

    [CreateIndex] needs its table to be present when it is applied.  New relations are
    created first, in hash order; then the existing relations are updated, in hash order.
    So whatever the order is:
    - a brand-new index is safe if its table is already a table in the source;
    - an index that is re-created is safe if its table is a table in the target, and in
      the source it is a table as well or does not exist. *)
Definition index_recreate_safe (srel trel : gmap str relation) (i : index) : Prop :=
  is_table (trel !! ix_table i) /\
  (srel !! ix_table i = None \/ is_table (srel !! ix_table i)).

Definition index_safe (srel trel : gmap str relation) (k : str) (i : index) : Prop :=
  match srel !! k with
  | None => is_table (srel !! ix_table i)
  | Some (RIndex j) => ix_keys j = ix_keys i \/ index_recreate_safe srel trel i
  | Some _ => index_recreate_safe srel trel i
  end.

Definition source_relations (s : database) (n : str) : gmap str relation :=
  match db_schemas s !! n with Some sc => sc_relations sc | None => ∅ end.

Definition indexes_safe (s t : database) : Prop :=
  forall n sct k i, db_schemas t !! n = Some sct -> sc_relations sct !! k = Some (RIndex i) ->
  index_safe (source_relations s n) (sc_relations sct) k i.

(** ** The exact result of applying a diff *)

(** A sequence as [CreateSequence] leaves it. *)
Definition unowned (q : sequence) : sequence :=
  Sequence (sq_schema q) (sq_name q) (sq_type q) (sq_increment q) (sq_min q) (sq_max q)
    (sq_start q) (sq_cache q) (sq_cycle q) None None.

Definition created (r : relation) : relation :=
  match r with RSequence q => RSequence (unowned q) | _ => r end.

(** Source columns that survive, in source order with the target's attributes, followed
    by the new columns in target order. *)
Definition kept_then_new (s t : list column) : list column :=
  omap (fun c => find_column (col_name c) t) s ++
  filter (fun c => find_column (col_name c) s = None) t.

Definition expected_relation (s t : option relation) : option relation :=
  match s, t with
  | _, None => None
  | Some (RTable a), Some (RTable b) =>
      Some (RTable (Table (tb_schema b) (tb_name b)
        (kept_then_new (tb_columns a) (tb_columns b)) (tb_constraints b)))
  | Some (RSequence a), Some (RSequence b) =>
      if decide (a = b) then Some (RSequence b) else Some (created (RSequence b))
  | Some (RIndex a), Some (RIndex b) =>
      if decide (ix_keys a = ix_keys b) then Some (RIndex a) else Some (RIndex b)
  | _, Some r => Some (created r)
  end.

Definition expected_schema (s : gmap str relation) (t : schema) : schema :=
  Schema (sc_name t) (merge expected_relation s (sc_relations t)) (sc_functions t).

Definition expected_db (s t : database) : database :=
  Database (map_imap (fun n sct => Some (expected_schema (source_relations s n) sct))
              (db_schemas t)).

(** ** What the diff can see

    Two indexes with the same keys look the same to the diff, whatever their table,
    uniqueness and method. *)
Definition relation_same (a b : relation) : Prop :=
  match a, b with
  | RIndex a, RIndex b =>
      ix_schema a = ix_schema b /\ ix_name a = ix_name b /\ ix_keys a = ix_keys b
  | _, _ => relation_equiv a b
  end.

Definition schema_same (a b : schema) : Prop :=
  sc_name a = sc_name b /\
  (forall k, option_Forall2 relation_same (sc_relations a !! k) (sc_relations b !! k)) /\
  sc_functions a = sc_functions b.

Definition db_same (a b : database) : Prop :=
  forall n, option_Forall2 schema_same (db_schemas a !! n) (db_schemas b !! n).

(** Indexes that exist on both sides with the same keys agree on everything else. *)
Definition index_attributes_agree (s t : database) : Prop :=
  forall n k a b, relation_at s n k = Some (RIndex a) -> relation_at t n k = Some (RIndex b) ->
  ix_keys a = ix_keys b -> a = b.

(** Sequences that have to be (re)created have no owner in the target. *)
Definition new_sequences_unowned (s t : database) : Prop :=
  forall n k q, relation_at t n k = Some (RSequence q) ->
  relation_at s n k = Some (RSequence q) \/ (sq_owned_table q = None /\ sq_owned_column q = None).

(** ** Objects that differ

    The state of the object a change names, as far as it lies in the snapshot. *)
Definition differs (s t : database) (g : target) : Prop :=
  match g with
  | TSchema n => ~ (is_Some (db_schemas s !! n) <-> is_Some (db_schemas t !! n))
  | TRelation n k =>
      ~ option_Forall2 relation_equiv (relation_at s n k) (relation_at t n k)
  | TFunction n f => function_at s n f <> function_at t n f
  | TColumns n k cs => exists c, cs = [c] /\ column_at s n k c <> column_at t n k c
  | TConstraint n k c => constraint_at s n k c <> constraint_at t n k c
  end.

(** ** Why a change is in the diff

    What source and target look like at the object a change of the diff names. *)
Definition justified (s t : database) (c : change) : Prop :=
  match c with
  | CreateSchema n => db_schemas s !! n = None /\ is_Some (db_schemas t !! n)
  | DropSchema n => is_Some (db_schemas s !! n) /\ db_schemas t !! n = None
  | CreateTable n k _ => ~ table_at s n k /\ table_at t n k
  | DropTable n k => table_at s n k /\ ~ table_at t n k
  | CreateView n k _ =>
      (exists v, relation_at t n k = Some (RView v)) /\ relation_at s n k <> relation_at t n k
  | DropView n k =>
      (exists v, relation_at s n k = Some (RView v)) /\ relation_at s n k <> relation_at t n k
  | CreateIndex n _ k _ _ _ => exists i, relation_at t n k = Some (RIndex i) /\
      forall j, relation_at s n k = Some (RIndex j) -> ix_keys j <> ix_keys i
  | DropIndex n k => exists i, relation_at s n k = Some (RIndex i) /\
      forall j, relation_at t n k = Some (RIndex j) -> ix_keys j <> ix_keys i
  | CreateSequence n k _ _ _ _ _ _ _ =>
      (exists q, relation_at t n k = Some (RSequence q)) /\ relation_at s n k <> relation_at t n k
  | DropSequence n k =>
      (exists q, relation_at s n k = Some (RSequence q)) /\ relation_at s n k <> relation_at t n k
  | CreateFunction n f _ _ _ _ =>
      is_Some (function_at t n f) /\ function_at s n f <> function_at t n f
  | DropFunction n f => is_Some (function_at s n f) /\ function_at s n f <> function_at t n f
  | AddColumn n k c _ _ _ =>
      table_at s n k /\ column_at s n k c = None /\ is_Some (column_at t n k c)
  | DropColumn n k c =>
      is_Some (column_at s n k c) /\ table_at t n k /\ column_at t n k c = None
  | AlterColumnSetDataType n k c ty => exists a b, column_at s n k c = Some a /\
      column_at t n k c = Some b /\ col_type a <> col_type b /\ ty = col_type b
  | AlterColumnSetDefault n k c df => exists a b, column_at s n k c = Some a /\
      column_at t n k c = Some b /\ col_default a <> col_default b /\ df = col_default b
  | AlterColumnSetNotNull n k c nn => exists a b, column_at s n k c = Some a /\
      column_at t n k c = Some b /\ col_notnull a <> col_notnull b /\ nn = col_notnull b
  | RenameColumn _ _ _ _ => False
  | AddCheck n k c _ _ _ | AddForeignKey n k c _ _ _ _ _ _ _ _ _
  | AddPrimaryKey n k c _ _ _ | AddUnique n k c _ _ _ =>
      is_Some (constraint_at t n k c) /\ constraint_at s n k c <> constraint_at t n k c
  | AlterCheck n k c _ _ | AlterForeignKey n k c _ _ | AlterPrimaryKey n k c _ _
  | AlterUnique n k c _ _ =>
      is_Some (constraint_at s n k c) /\ is_Some (constraint_at t n k c) /\
      constraint_at s n k c <> constraint_at t n k c
  | DropCheck n k c | DropForeignKey n k c | DropPrimaryKey n k c | DropUnique n k c =>
      is_Some (constraint_at s n k c) /\ table_at t n k /\
      constraint_at s n k c <> constraint_at t n k c
  end.

(** ** When a staged changeset can be rolled back for every hash order

    Tables that go away have no constraints; sequences that go away or are re-created
    have no owner; an index that goes away or is re-created is on a table that the
    target has, and that the source has as a table or not at all. *)
Definition rollback_safe (s t : database) : Prop :=
  (forall n k tb, relation_at s n k = Some (RTable tb) -> ~ table_at t n k ->
     tb_constraints tb = ∅) /\
  (forall n k q, relation_at s n k = Some (RSequence q) ->
     relation_at t n k <> Some (RSequence q) ->
     sq_owned_table q = None /\ sq_owned_column q = None) /\
  (forall n k i, relation_at s n k = Some (RIndex i) ->
     (forall j, relation_at t n k = Some (RIndex j) -> ix_keys j <> ix_keys i) ->
     (relation_at s n (ix_table i) = None \/ table_at s n (ix_table i)) /\
     table_at t n (ix_table i)).
