(** Specification vocabulary for snapshots: well-formedness, equality up to column
    order, and the observations used in the property statements. *)
From Verif Require Import Base Types Changes.

(** ** Well-formed snapshots

    Every object is stored under its own name, carries the names of its parents, and no
    table has two columns with the same name. *)
Definition wf_column (sn tn : str) (c : column) : Prop :=
  col_schema c = sn /\ col_table c = tn.

Definition wf_constraint (sn tn : str) (k : str) (c : constraint) : Prop :=
  constraint_schema c = sn /\ constraint_table c = tn /\ constraint_name c = k.

Definition wf_table (sn k : str) (t : table) : Prop :=
  tb_schema t = sn /\ tb_name t = k /\
  NoDup (col_name <$> tb_columns t) /\
  Forall (wf_column sn k) (tb_columns t) /\
  map_Forall (wf_constraint sn k) (tb_constraints t).

Definition wf_relation (sn k : str) (r : relation) : Prop :=
  match r with
  | RTable t => wf_table sn k t
  | _ => relation_schema r = sn /\ relation_name r = k
  end.

Definition wf_function (sn k : str) (f : function) : Prop :=
  fn_schema f = sn /\ fn_name f = k.

Definition wf_schema (k : str) (s : schema) : Prop :=
  sc_name s = k /\
  map_Forall (wf_relation k) (sc_relations s) /\
  map_Forall (wf_function k) (sc_functions s).

Definition wf_db (d : database) : Prop := map_Forall wf_schema (db_schemas d).

(** ** Equality up to the order of columns *)
Definition table_equiv (a b : table) : Prop :=
  tb_schema a = tb_schema b /\ tb_name a = tb_name b /\
  tb_columns a ≡ₚ tb_columns b /\ tb_constraints a = tb_constraints b.

Definition relation_equiv (a b : relation) : Prop :=
  match a, b with
  | RTable a, RTable b => table_equiv a b
  | _, _ => a = b
  end.

Definition schema_equiv (a b : schema) : Prop :=
  sc_name a = sc_name b /\
  (forall k, option_Forall2 relation_equiv (sc_relations a !! k) (sc_relations b !! k)) /\
  sc_functions a = sc_functions b.

Definition db_equiv (a b : database) : Prop :=
  forall n, option_Forall2 schema_equiv (db_schemas a !! n) (db_schemas b !! n).

(** ** Observations *)

(** The relation stored under a schema and a name, if any. *)
Definition relation_at (d : database) (n k : str) : option relation :=
  db_schemas d !! n ≫= fun sc => sc_relations sc !! k.

(** The function stored under a schema and a name, if any. *)
Definition function_at (d : database) (n k : str) : option function :=
  db_schemas d !! n ≫= fun sc => sc_functions sc !! k.

(** There is a table of that name. *)
Definition is_table (o : option relation) : Prop := exists t, o = Some (RTable t).
Definition table_at (d : database) (n k : str) : Prop := is_table (relation_at d n k).

(** The columns and constraints of a table, by name. *)
Definition column_at (d : database) (n k c : str) : option column :=
  match relation_at d n k with
  | Some (RTable t) => find_column c (tb_columns t)
  | _ => None
  end.
Definition constraint_at (d : database) (n k c : str) : option constraint :=
  match relation_at d n k with
  | Some (RTable t) => tb_constraints t !! c
  | _ => None
  end.
