(** Specification of the effect of single changes: the object a change names, what a
    change may touch, and when its revert loses nothing. *)
From Verif Require Import Base Types Changes SpecSnapshot.

(** ** The object a change names *)
Inductive target :=
  | TSchema (n : str)
  | TRelation (n k : str)
  | TFunction (n f : str)
  | TColumns (n k : str) (cs : list str)
  | TConstraint (n k c : str).

Definition target_of (c : change) : target :=
  match c with
  | CreateSchema n | DropSchema n => TSchema n
  | CreateTable n k _ | DropTable n k
  | CreateView n k _ | DropView n k
  | CreateIndex n _ k _ _ _ | DropIndex n k
  | CreateSequence n k _ _ _ _ _ _ _ | DropSequence n k => TRelation n k
  | CreateFunction n f _ _ _ _ | DropFunction n f => TFunction n f
  | AddColumn n k c _ _ _ | DropColumn n k c
  | AlterColumnSetDataType n k c _ | AlterColumnSetDefault n k c _
  | AlterColumnSetNotNull n k c _ => TColumns n k [c]
  | RenameColumn n k c c' => TColumns n k [c; c']
  | AddCheck n k c _ _ _ | AlterCheck n k c _ _ | DropCheck n k c
  | AddForeignKey n k c _ _ _ _ _ _ _ _ _ | AlterForeignKey n k c _ _ | DropForeignKey n k c
  | AddPrimaryKey n k c _ _ _ | AlterPrimaryKey n k c _ _ | DropPrimaryKey n k c
  | AddUnique n k c _ _ _ | AlterUnique n k c _ _ | DropUnique n k c => TConstraint n k c
  end.

Definition target_schema (g : target) : str :=
  match g with
  | TSchema n | TRelation n _ | TFunction n _ | TColumns n _ _ | TConstraint n _ _ => n
  end.

(** ** What a change may touch *)

(** The columns of a table other than the named ones, in order. *)
Definition other_columns (cs : list str) (t : table) : list column :=
  filter (fun c => col_name c ∉ cs) (tb_columns t).

(** Two tables that differ at most in the named columns. *)
Definition same_but_columns (cs : list str) (a b : table) : Prop :=
  tb_schema a = tb_schema b /\ tb_name a = tb_name b /\
  other_columns cs a = other_columns cs b /\ tb_constraints a = tb_constraints b.

(** Two tables that differ at most in the named constraint. *)
Definition same_but_constraint (c : str) (a b : table) : Prop :=
  tb_schema a = tb_schema b /\ tb_name a = tb_name b /\ tb_columns a = tb_columns b /\
  forall c', c' <> c -> tb_constraints a !! c' = tb_constraints b !! c'.

(** Two optional relations that are equal, or tables related by [R]. *)
Definition rel_same_or (R : table -> table -> Prop) (a b : option relation) : Prop :=
  a = b \/ exists x y, a = Some (RTable x) /\ b = Some (RTable y) /\ R x y.

(** Two schemas that differ at most in the object [g] (which lies in this schema). *)
Definition schema_same_but (g : target) (a b : schema) : Prop :=
  sc_name a = sc_name b /\
  match g with
  | TSchema _ => True
  | TRelation _ k =>
      (forall k', k' <> k -> sc_relations a !! k' = sc_relations b !! k') /\
      sc_functions a = sc_functions b
  | TFunction _ f =>
      sc_relations a = sc_relations b /\
      (forall f', f' <> f -> sc_functions a !! f' = sc_functions b !! f')
  | TColumns _ k cs =>
      (forall k', k' <> k -> sc_relations a !! k' = sc_relations b !! k') /\
      rel_same_or (same_but_columns cs) (sc_relations a !! k) (sc_relations b !! k) /\
      sc_functions a = sc_functions b
  | TConstraint _ k c =>
      (forall k', k' <> k -> sc_relations a !! k' = sc_relations b !! k') /\
      rel_same_or (same_but_constraint c) (sc_relations a !! k) (sc_relations b !! k) /\
      sc_functions a = sc_functions b
  end.

(** Two snapshots that differ at most in the object [g]. *)
Definition same_but (g : target) (a b : database) : Prop :=
  (forall n, n <> target_schema g -> db_schemas a !! n = db_schemas b !! n) /\
  match g with
  | TSchema _ => True
  | _ => option_Forall2 (schema_same_but g)
           (db_schemas a !! target_schema g) (db_schemas b !! target_schema g)
  end.

(** ** Reverts that lose nothing *)

(** The object dropped by [c] is one its revert can rebuild from [d]: a table without
    constraints, a sequence nobody owns, an index whose table is still there, an empty
    schema.  Every other change kind is always recoverable. *)
Definition recoverable (c : change) (d : database) : Prop :=
  match c with
  | DropTable n k => forall tb, relation_at d n k = Some (RTable tb) -> tb_constraints tb = ∅
  | DropSequence n k => forall q, relation_at d n k = Some (RSequence q) ->
      sq_owned_table q = None /\ sq_owned_column q = None
  | DropIndex n k => forall i, relation_at d n k = Some (RIndex i) -> table_at d n (ix_table i)
  | DropSchema n => forall sc, db_schemas d !! n = Some sc ->
      sc_relations sc = ∅ /\ sc_functions sc = ∅
  | _ => True
  end.

(** ** Indexes and their tables *)

Definition no_dangling_index (d : database) : Prop :=
  forall n k i, relation_at d n k = Some (RIndex i) -> table_at d n (ix_table i).

(** Some index of schema [n] other than [k] itself is on [k]. *)
Definition indexed (d : database) (n k : str) : Prop :=
  exists j i, j <> k /\ relation_at d n j = Some (RIndex i) /\ ix_table i = k.
