(** Specification vocabulary: which columns are NOT NULL after the statements of a migration. *)
From Verif Require Import Base Text Types Changes SpecSnapshot SpecSql SpecLex SpecStatement SpecServer SpecSpelled.

(** Whether the columns of a database are NOT NULL: schema, table, column. *)
Definition nullability : Type := str -> str -> str -> bool.
Definition not_null_in (d : database) : nullability :=
  fun s t x => match column_at d s t x with Some c => col_notnull c | None => false end.

(** The same after the statement of a change: a new table has no NOT NULL columns, a column
    is added with the opposite of what was meant, and a primary key makes its columns
    NOT NULL. *)
Definition null_step (c : change) (N : nullability) : nullability :=
  fun s t x =>
    match c with
    | CreateTable s' t' _ => if decide ((s, t) = (s', t')) then false else N s t x
    | AddColumn s' t' n _ nn _ => if decide ((s, t, x) = (s', t', n)) then negb nn else N s t x
    | AlterColumnSetNotNull s' t' n b => if decide ((s, t, x) = (s', t', n)) then b else N s t x
    | AddPrimaryKey s' t' _ cs _ _ =>
        if decide ((s, t) = (s', t') /\ x ∈ cs) then true else N s t x
    | RenameColumn s' t' n n' => if decide ((s, t, x) = (s', t', n')) then N s t n else N s t x
    | _ => N s t x
    end.
Fixpoint null_after (cs : list change) (N : nullability) : nullability :=
  match cs with [] => N | c :: cs => null_after cs (null_step c N) end.

(** Every change says what it means and has no effect besides, but for NOT NULL. *)
Definition said (c : change) : Prop :=
  match c with CreateTable _ _ _ | AddColumn _ _ _ _ _ _ => True | _ => sayable c end.
Definition plain_drop (c : change) (d : database) : Prop :=
  match c with AddPrimaryKey _ _ _ _ _ _ => True | _ => plain_effect c d end.
Fixpoint faithful_but_null (d : database) (cs : list change) : Prop :=
  match cs with
  | [] => True
  | c :: cs => said c /\ plain_drop c d /\ forall d', apply c d = (d', Ok ()) -> faithful_but_null d' cs
  end.

(** ** The differences between two snapshots *)

(** A primary key that is added to the table has this column. *)
Definition key_added (s t : database) (n k x : str) : Prop :=
  exists c p, constraint_at t n k c = Some (CPrimaryKey p) /\ x ∈ pk_columns p /\
    undeferred <$> constraint_at s n k c <> Some (undeferred (CPrimaryKey p)).
(** An old column may become nullable unless it becomes part of a primary key; a column of a
    new table is NOT NULL exactly if it is part of the primary key; a column added to an old
    table is NOT NULL and part of a new primary key. *)
Definition nulls_kept (s t : database) : Prop :=
  forall n k x col, column_at t n k x = Some col ->
    (is_Some (column_at s n k x) /\ (key_added s t n k x -> col_notnull col = true)) \/
    (~ table_at s n k /\ (col_notnull col = true <-> key_added s t n k x)) \/
    (table_at s n k /\ column_at s n k x = None /\ col_notnull col = true /\ key_added s t n k x).
