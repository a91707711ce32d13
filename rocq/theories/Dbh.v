(** The version table in the database and the commands that migrate: src/history/dbh.rs,
    src/cmd/{up,down}.rs. *)
From Verif Require Import Base Text Types Changes Sql History.
From stdpp Require Import sorting.

(** ** PostgreSQL, as far as the commands see it

    [S] is everything in the database that up and down scripts work on, [sem] what a
    statement does to it ([None]: an error), [ident] how PostgreSQL reads a text as the
    name of a schema ([None]: an error).  The theorems hold for all of them.  Assumed of
    scripts: a statement neither touches the version table nor ends the transaction. *)

(** A row of the version table: src/history/dbh.rs:163-176.  [changes] is kept as such
    (its JSON form: Serde.v), [applied_at] is left out. *)
Record row := Row { r_version : version; r_order : Z }.
Global Instance row_eq_dec : EqDecision row.
Proof. solve_decision. Defined.
(** The version table: its rows, and the next value of the sequence behind
    [applied_order SERIAL]. *)
Record vtable := VTable { t_rows : list row; t_next : Z }.
Global Instance vtable_eq_dec : EqDecision vtable.
Proof. solve_decision. Defined.
(** The database: user objects; and the schemas that exist, each with its table
    [version] if it has one. *)
Record pg (S : Type) := Pg { pg_user : S; pg_schemas : gmap str (option vtable) }.
Arguments Pg {_} _ _.
Arguments pg_user {_} _.
Arguments pg_schemas {_} _.
(** A transaction: what others see, and what it sees. *)
Record session (S : Type) := Session { committed : pg S; working : pg S }.
Arguments Session {_} _ _.
Arguments committed {_} _.
Arguments working {_} _.

Definition row_name (r : row) : str := v_name (r_version r).
(** VARCHAR(128), src/history/dbh.rs:166-167.  (PostgreSQL cuts off excess characters that
    are all blanks; the model takes this for an error, too.) *)
Definition varchar (s : str) : bool := bool_decide (length s <= 128) && bool_decide (0%N ∉ s).
(** Text values cannot contain NUL. *)
Definition texts (l : list str) : bool := forallb (fun s => bool_decide (0%N ∉ s)) l.
(** [INTEGER], the type of SERIAL columns. *)
Definition max_order : Z := 2147483647.

(** src/history/dbh.rs:177-182, INSERT INTO version: values must fit, [applied_order] takes the next value
    of the sequence (also if the statement fails later), then the primary key, the unique
    constraint and the foreign key are checked (a row may refer to itself). *)
Definition insert_row (v : version) (t : vtable) : exec () * vtable :=
  if negb (varchar (v_name v) && from_option varchar true (v_previous v) && texts (v_up v) && texts (v_down v))
  then (Raise DbError, t) else
  if decide (max_order < t_next t)%Z then (Raise DbError, t) else
  let t' := VTable (t_rows t) (t_next t + 1) in
  if decide (v_name v ∈ row_name <$> t_rows t) then (Raise DbError, t') else
  if decide (t_next t ∈ r_order <$> t_rows t) then (Raise DbError, t') else
  match v_previous v with
  | Some p =>
      if decide (p = v_name v \/ p ∈ row_name <$> t_rows t)
      then (Ret (), VTable (t_rows t ++ [Row v (t_next t)]) (t_next t + 1))
      else (Raise DbError, t')
  | None => (Ret (), VTable (t_rows t ++ [Row v (t_next t)]) (t_next t + 1))
  end.
(** src/history/dbh.rs:191-193, DELETE FROM version: the foreign key must not be left dangling. *)
Definition delete_row (n : str) (t : vtable) : exec () * vtable :=
  let rest := filter (fun r => row_name r <> n) (t_rows t) in
  if decide (n ∈ row_name <$> t_rows t /\ Some n ∈ (fun r => v_previous (r_version r)) <$> rest)
  then (Raise DbError, t)
  else (Ret (), VTable rest (t_next t)).

Definition order_desc (a b : row) : Prop := (r_order b <= r_order a)%Z.
Global Instance order_desc_dec : RelDecision order_desc.
Proof. intros a b. unfold order_desc. apply _. Defined.
(** [ORDER BY applied_order DESC] *)
Definition newest_first (l : list row) : list row := merge_sort order_desc l.

Section dbh.
  Context {S : Type} (sem : str -> S -> option S) (ident : str -> option str).

  (** ** Statements *)

  (** A statement on the version table of a schema. *)
  Definition on_table {A} (schema : str) (f : vtable -> exec A * vtable) : io (session S) A :=
    istep (fun s =>
      match ident schema with
      | Some n =>
          match pg_schemas (working s) !! n with
          | Some (Some t) =>
              let '(r, t') := f t in
              (r, Session (committed s) (Pg (pg_user (working s)) (<[n := Some t']> (pg_schemas (working s)))))
          | _ => (Raise DbError, s)
          end
      | None => (Raise DbError, s)
      end).
  (** A query on it. *)
  Definition ask_table {A} (schema : str) (f : list row -> exec A) : io (session S) A :=
    on_table schema (fun t => (f (t_rows t), t)).
  (** [tx.execute(stmt)] for statements of a version. *)
  Definition execute (stmt : str) : io (session S) () :=
    istep (fun s =>
      match sem stmt (pg_user (working s)) with
      | Some u => (Ret (), Session (committed s) (Pg u (pg_schemas (working s))))
      | None => (Raise DbError, s)
      end).
  (** [tx.commit()] sends COMMIT.  The server checks what was put off to the end of the
      transaction, such as constraints that are INITIALLY DEFERRED; if this fails, the
      transaction is rolled back.  Deferred triggers that change something are not modelled:
      what [sem] makes of COMMIT matters only as to whether it succeeds. *)
  Definition commit : io (session S) () :=
    istep (fun s =>
      match sem (L "COMMIT") (pg_user (working s)) with
      | Some _ => (Ret (), Session (working s) (working s))
      | None => (Raise DbError, s)
      end).
  (** [unwrap] on the result of a database operation. *)
  Definition iunwrap {A} (m : io (session S) A) : io (session S) A :=
    fun s => let '(r, s') := m s in (unwrapped r, s').

  (** ** src/history/dbh.rs *)

  (** src/history/dbh.rs:118-124, meta_schema_exists *)
  Definition meta_schema_exists (schema : str) : io (session S) bool :=
    istep (fun s => (Ret (bool_decide (is_Some (pg_schemas (working s) !! schema))), s)).
  (** src/history/dbh.rs:112, 160-162 *)
  Definition create_schema (schema : str) : io (session S) () :=
    istep (fun s =>
      match ident schema with
      | Some n =>
          match pg_schemas (working s) !! n with
          | None => (Ret (), Session (committed s) (Pg (pg_user (working s)) (<[n := None]> (pg_schemas (working s)))))
          | Some _ => (Raise DbError, s)
          end
      | None => (Raise DbError, s)
      end).
  (** src/history/dbh.rs:113, 163-176 *)
  Definition create_table (schema : str) : io (session S) () :=
    istep (fun s =>
      match ident schema with
      | Some n =>
          match pg_schemas (working s) !! n with
          | Some None =>
              (Ret (), Session (committed s)
                 (Pg (pg_user (working s)) (<[n := Some (VTable [] 1)]> (pg_schemas (working s)))))
          | _ => (Raise DbError, s)
          end
      | None => (Raise DbError, s)
      end).
  (** src/history/dbh.rs:20-38, save_version *)
  Definition record_version (schema : str) (v : version) : io (session S) () :=
    on_table schema (insert_row v).
  (** src/history/dbh.rs:40-50, delete_version *)
  Definition delete_version (schema : str) (v : version) : io (session S) () :=
    on_table schema (delete_row (v_name v)).
  (** src/history/dbh.rs:52-63, get_version *)
  Definition recorded_version (schema n : str) : io (session S) version :=
    ask_table schema (fun rows =>
      match filter (fun r => row_name r = n) rows with
      | [r] => Ret (r_version r)
      | _ => Raise DbError
      end).
  (** src/history/dbh.rs:111-116, create_meta_schema *)
  Definition create_meta_schema (schema : str) : io (session S) () :=
    do _ <- create_schema schema;
    do _ <- create_table schema;
    record_version schema new_init.
  (** src/history/dbh.rs:104-109, ensure_initialized *)
  Definition ensure_initialized (schema : str) : io (session S) () :=
    do b <- meta_schema_exists schema;
    if b : bool then iret () else create_meta_schema schema.
  (** src/history/dbh.rs:65-72, get_current_version *)
  Definition db_current_version (schema : str) : io (session S) version :=
    do b <- meta_schema_exists schema;
    if b : bool then
      ask_table schema (fun rows =>
        match newest_first rows with r :: _ => Ret (r_version r) | [] => Raise DbError end)
    else iread (fun _ => Raise NotInitialized).
  (** src/history/dbh.rs:126-139, get_applied_order *)
  Definition get_applied_order (schema n : str) : io (session S) (option Z) :=
    ask_table schema (fun rows =>
      match filter (fun r => row_name r = n) rows with
      | [] => Ret None
      | [r] => Ret (Some (r_order r))
      | _ => Raise DbError
      end).
  (** src/history/dbh.rs:74-102, get_downward_range *)
  Definition get_downward_range (schema from to : str) : io (session S) (list str) :=
    do from_order <- get_applied_order schema from;
    do to_order <- get_applied_order schema to;
    match from_order, to_order with
    | None, _ => iread (fun _ => Raise (NoMatchingVersion from))
    | _, None => iread (fun _ => Raise (NoMatchingVersion to))
    | Some f, Some t =>
        ask_table schema (fun rows =>
          Ret (row_name <$> newest_first (filter (fun r => r_order r <= f /\ t < r_order r)%Z rows)))
    end.

  (** ** Commands *)

  (** src/cmd/up.rs:44-47 and src/cmd/down.rs:42-45: the statements of a version. *)
  Fixpoint execute_all (stmts : list str) : io (session S) () :=
    match stmts with
    | [] => iret ()
    | stmt :: stmts => do _ <- iunwrap (execute stmt); execute_all stmts
    end.
  (** src/cmd/up.rs:41-49 *)
  Fixpoint apply_versions (d : hdir) (schema : str) (names : list str) : io (session S) () :=
    match names with
    | [] => iret ()
    | n :: names =>
        do v <- iread (fun _ => get_version d n);
        do _ <- execute_all (v_up v);
        do _ <- iunwrap (record_version schema v);
        apply_versions d schema names
    end.
  (** src/cmd/up.rs:9-54, up.  [d] is the history directory, [l] the order in which it is listed. *)
  Definition up (l : listing) (d : hdir) (schema : str) (version : option str) : io (session S) () :=
    do h <- iread (fun _ => from_dir l d);
    do _ <- ensure_initialized schema;
    do current <- db_current_version schema;
    do to <- iread (fun _ =>
      match version with Some v => get_version d v | None => get_current_version h d end);
    do versions <- iread (fun _ => get_upward_range d (v_name current) (v_name to));
    match versions with
    | [] => iret ()
    | _ => do _ <- apply_versions d schema versions; commit
    end.

  (** src/cmd/down.rs:39-47 *)
  Fixpoint revert_versions (schema : str) (names : list str) : io (session S) () :=
    match names with
    | [] => iret ()
    | n :: names =>
        do v <- iunwrap (recorded_version schema n);
        do _ <- execute_all (v_down v);
        do _ <- iunwrap (delete_version schema v);
        revert_versions schema names
    end.
  (** src/cmd/down.rs:5-52, down *)
  Definition down (schema : str) (version : option str) : io (session S) () :=
    do _ <- ensure_initialized schema;
    do current <- db_current_version schema;
    match (match version with Some v => Some v | None => v_previous current end) with
    | None => iret ()
    | Some to =>
        do versions <- get_downward_range schema (v_name current) to;
        match versions with
        | [] => iret ()
        | _ => do _ <- revert_versions schema versions; commit
        end
    end.

  (** ** The database after a command

      Whatever was not committed is rolled back when the transaction is dropped or the
      connection breaks, except that sequences do not go back. *)
  Definition advance (t t' : vtable) : vtable := VTable (t_rows t) (t_next t').
  Definition rolled_back (s : session S) : pg S :=
    Pg (pg_user (committed s))
       (map_imap (fun n o =>
          Some (match o, pg_schemas (working s) !! n with
                | Some t, Some (Some t') => Some (advance t t')
                | o, _ => o
                end)) (pg_schemas (committed s))).
  Definition run (m : io (session S) ()) (k : nat) (db : pg S) : exec () * pg S :=
    let '(r, (_, s)) := m (k, Session db db) in (r, rolled_back s).
End dbh.
