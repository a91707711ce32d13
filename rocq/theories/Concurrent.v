(** Several migration commands at the same time on one database: src/cmd/{up,down}.rs and
    src/history/dbh.rs again, this time as programs whose database operations can be
    interleaved.  [interp] in ConcurrentRefine.v runs such a program on the database of Dbh.v;
    the programs are proved equal to the commands there. *)
From Verif Require Import Base Text Types Changes Sql History Dbh.

(** ** Programs *)

(** What a command sends to the server.  [Select] stands for every query on the version
    table; what the query makes of the rows is in the program. *)
Inductive query :=
  | AskSchema              (** src/history/dbh.rs:118-124 *)
  | MakeSchema             (** src/history/dbh.rs:112, 160-162 *)
  | MakeTable              (** src/history/dbh.rs:113, 163-176 *)
  | InsertRow (v : version)   (** src/history/dbh.rs:20-38, 177-182 *)
  | DeleteRow (n : str)       (** src/history/dbh.rs:40-50, 191-193 *)
  | Select                 (** src/history/dbh.rs:52-72, 84-87, 126-139 *)
  | Execute (stmt : str)   (** src/cmd/up.rs:45, src/cmd/down.rs:43 *)
  | Commit.                (** src/cmd/up.rs:51, src/cmd/down.rs:49 *)
(** What it gets back. *)
Inductive reply :=
  | Failed
  | Accepted
  | Exists_ (b : bool)
  | Rows (l : list row).

(** A command, up to the next reply: finished, or waiting for one. *)
Inductive program (A : Type) :=
  | Stop (r : exec A)
  | Ask (q : query) (k : reply -> program A).
Arguments Stop {_} _.
Arguments Ask {_} _ _.

(** [?] *)
Fixpoint pbind {A B} (m : program A) (f : A -> program B) : program B :=
  match m with
  | Stop (Ret a) => f a
  | Stop (Raise e) => Stop (Raise e)
  | Stop Abort => Stop Abort
  | Stop Hang => Stop Hang
  | Stop Killed => Stop Killed
  | Ask q k => Ask q (fun r => pbind (k r) f)
  end.
Notation "'go' x '<-' m ';' k" := (pbind m (fun x => k))
  (at level 200, x pattern, m at level 100, k at level 200, right associativity).
(** [unwrap] *)
Fixpoint punwrap {A} (m : program A) : program A :=
  match m with
  | Stop r => Stop (unwrapped r)
  | Ask q k => Ask q (fun r => punwrap (k r))
  end.

(** An operation without a result, and a query on the version table; errors of the server
    are [DbError]. *)
Definition tell (q : query) : program () :=
  Ask q (fun r => match r with Accepted => Stop (Ret ()) | _ => Stop (Raise DbError) end).
Definition select {A} (f : list row -> exec A) : program A :=
  Ask Select (fun r => match r with Rows l => Stop (f l) | _ => Stop (Raise DbError) end).

(** src/history/dbh.rs:118-124, meta_schema_exists *)
Definition p_meta_schema_exists : program bool :=
  Ask AskSchema (fun r => match r with Exists_ b => Stop (Ret b) | _ => Stop (Raise DbError) end).
(** src/history/dbh.rs:104-116, ensure_initialized, create_meta_schema *)
Definition p_ensure_initialized : program () :=
  go b <- p_meta_schema_exists;
  if b : bool then Stop (Ret ()) else
  go _ <- tell MakeSchema;
  go _ <- tell MakeTable;
  tell (InsertRow new_init).
(** src/history/dbh.rs:65-72, get_current_version *)
Definition p_current_version : program version :=
  go b <- p_meta_schema_exists;
  if b : bool then
    select (fun rows => match newest_first rows with r :: _ => Ret (r_version r) | [] => Raise DbError end)
  else Stop (Raise NotInitialized).
(** src/history/dbh.rs:52-63, get_version *)
Definition p_recorded_version (n : str) : program version :=
  select (fun rows => match filter (fun r => row_name r = n) rows with [r] => Ret (r_version r) | _ => Raise DbError end).
(** src/history/dbh.rs:126-139, get_applied_order *)
Definition p_applied_order (n : str) : program (option Z) :=
  select (fun rows =>
    match filter (fun r => row_name r = n) rows with
    | [] => Ret None
    | [r] => Ret (Some (r_order r))
    | _ => Raise DbError
    end).
(** src/history/dbh.rs:74-102, get_downward_range *)
Definition p_downward_range (from to : str) : program (list str) :=
  go from_order <- p_applied_order from;
  go to_order <- p_applied_order to;
  match from_order, to_order with
  | None, _ => Stop (Raise (NoMatchingVersion from))
  | _, None => Stop (Raise (NoMatchingVersion to))
  | Some f, Some t =>
      select (fun rows =>
        Ret (row_name <$> newest_first (filter (fun r => r_order r <= f /\ t < r_order r)%Z rows)))
  end.

(** src/cmd/up.rs:44-47 and src/cmd/down.rs:42-45 *)
Fixpoint p_execute_all (stmts : list str) : program () :=
  match stmts with
  | [] => Stop (Ret ())
  | stmt :: stmts => go _ <- punwrap (tell (Execute stmt)); p_execute_all stmts
  end.
(** src/cmd/up.rs:41-49 *)
Fixpoint p_apply_versions (d : hdir) (names : list str) : program () :=
  match names with
  | [] => Stop (Ret ())
  | n :: names =>
      go v <- Stop (get_version d n);
      go _ <- p_execute_all (v_up v);
      go _ <- punwrap (tell (InsertRow v));
      p_apply_versions d names
  end.
(** src/cmd/up.rs:9-54, up.  The history directory is read as it is; that it may change
    while the command runs is not modelled. *)
Definition up_program (l : listing) (d : hdir) (version : option str) : program () :=
  go h <- Stop (from_dir l d);
  go _ <- p_ensure_initialized;
  go current <- p_current_version;
  go to <- Stop (match version with Some v => get_version d v | None => get_current_version h d end);
  go versions <- Stop (get_upward_range d (v_name current) (v_name to));
  match versions with
  | [] => Stop (Ret ())
  | _ => go _ <- p_apply_versions d versions; tell Commit
  end.
(** src/cmd/down.rs:39-47 *)
Fixpoint p_revert_versions (names : list str) : program () :=
  match names with
  | [] => Stop (Ret ())
  | n :: names =>
      go v <- punwrap (p_recorded_version n);
      go _ <- p_execute_all (v_down v);
      go _ <- punwrap (tell (DeleteRow (v_name v)));
      p_revert_versions names
  end.
(** src/cmd/down.rs:5-52, down *)
Definition down_program (version : option str) : program () :=
  go _ <- p_ensure_initialized;
  go current <- p_current_version;
  match (match version with Some v => Some v | None => v_previous current end) with
  | None => Stop (Ret ())
  | Some to =>
      go versions <- p_downward_range (v_name current) to;
      match versions with
      | [] => Stop (Ret ())
      | _ => go _ <- p_revert_versions versions; tell Commit
      end
  end.

(** A command line. *)
Inductive invocation :=
  | Up (l : listing) (d : hdir) (version : option str)
  | Down (version : option str).
Definition program_of (c : invocation) : program () :=
  match c with Up l d version => up_program l d version | Down version => down_program version end.

(** ** The server

    PostgreSQL at its default isolation level, read committed, as far as the version table
    goes: a transaction sees what was committed when its statement starts, and what it did
    itself; inserting a name waits for a transaction that inserted or deleted it and is still
    going on, then fails if the name is there; a reference waits for a transaction that
    deletes the row referred to, deleting waits for one that refers to the row.  Of the
    statements of scripts only the order in which they are executed is kept: what they do
    to the database is not modelled here, and every one may succeed or fail. *)

(** A command at work: the rest of its program; whether its transaction made the schema, and
    if the table, too, where the sequence stands; the number drawn for the row that is being
    inserted; the rows inserted; the names of committed rows deleted. *)
Record transaction := Transaction {
  x_program : program (); x_new : option (option Z); x_number : option Z;
  x_rows : list row; x_gone : list str }.
(** The server: the committed schema, if there is one, with its table, if it has one;
    commands at work; the statements of scripts executed so far, each with the command that
    did it; the commands whose transactions are committed; and how commands ended. *)
Record server := Server {
  s_table : option (option vtable); s_running : gmap nat transaction;
  s_trace : list (nat * str); s_committed : list nat; s_ended : gmap nat (exec ()) }.

(** The transactions of the others. *)
Definition others (i : nat) (s : server) : list transaction :=
  snd <$> map_to_list (delete i (s_running s)).
(** The rows that a transaction sees; [None]: there is no table. *)
Definition visible (x : transaction) (s : server) : option (list row) :=
  match x_new x with
  | Some (Some _) => Some (x_rows x)
  | Some None => None
  | None =>
      match s_table s with
      | Some (Some t) => Some (filter (fun r => row_name r ∉ x_gone x) (t_rows t) ++ x_rows x)
      | _ => None
      end
  end.

(** What the server does next: let the transaction wait, do something but not yet reply, or reply. *)
Inductive action :=
  | Waits
  | Proceeds (x : transaction) (s : server)
  | Replies (r : reply) (x : transaction) (s : server).

Definition set_table (o : option (option vtable)) (s : server) : server :=
  Server o (s_running s) (s_trace s) (s_committed s) (s_ended s).

Definition drop_number (x : transaction) : transaction :=
  Transaction (x_program x) (x_new x) None (x_rows x) (x_gone x).

(** src/history/dbh.rs:177-182.  The number is drawn first, and drawn for good; then the
    row is put in its place.  (Where the name is taken already, the model may wait for the
    predecessor before it fails.) *)
Definition insert_step (i : nat) (v : version) (x : transaction) (s : server) : action :=
  match visible x s with
  | None => Replies Failed x s
  | Some rows =>
      match x_number x with
      | None =>
          if negb (varchar (v_name v) && from_option varchar true (v_previous v) && texts (v_up v) && texts (v_down v))
          then Replies Failed x s else
          match x_new x, s_table s with
          | Some (Some o), _ =>
              if decide (max_order < o)%Z then Replies Failed x s else
              Proceeds (Transaction (x_program x) (Some (Some (o + 1)%Z)) (Some o) (x_rows x) (x_gone x)) s
          | _, Some (Some t) =>
              if decide (max_order < t_next t)%Z then Replies Failed x s else
              Proceeds (Transaction (x_program x) (x_new x) (Some (t_next t)) (x_rows x) (x_gone x))
                (set_table (Some (Some (VTable (t_rows t) (t_next t + 1)))) s)
          | _, _ => Replies Failed x s
          end
      | Some o =>
          if decide (Exists (fun y => v_name v ∈ (row_name <$> x_rows y) ++ x_gone y \/ o ∈ (r_order <$> x_rows y) \/
                                      Exists (fun p => p ∈ x_gone y) (option_list (v_previous v))) (others i s))
          then Waits else
          if decide (v_name v ∈ row_name <$> rows) then Replies Failed (drop_number x) s else
          if decide (o ∈ r_order <$> rows) then Replies Failed (drop_number x) s else
          if decide (Forall (fun p => p = v_name v \/ p ∈ row_name <$> rows) (option_list (v_previous v)))
          then Replies Accepted (Transaction (x_program x) (x_new x) None (x_rows x ++ [Row v o]) (x_gone x)) s
          else Replies Failed (drop_number x) s
      end
  end.
(** src/history/dbh.rs:191-193 *)
Definition delete_step (i : nat) (n : str) (x : transaction) (s : server) : action :=
  match visible x s with
  | None => Replies Failed x s
  | Some rows =>
      if decide (n ∈ row_name <$> rows) then
        let refers := filter (fun r => row_name r <> n /\ v_previous (r_version r) = Some n) rows in
        if decide (Exists (fun y => n ∈ x_gone y \/ Some n ∈ ((fun r => v_previous (r_version r)) <$> x_rows y) \/
                                    Exists (fun r => row_name r ∈ x_gone y) refers) (others i s))
        then Waits else
        if decide (refers = []) then
          if decide (n ∈ row_name <$> x_rows x)
          then Replies Accepted
                 (Transaction (x_program x) (x_new x) (x_number x) (filter (fun r => row_name r <> n) (x_rows x)) (x_gone x)) s
          else Replies Accepted (Transaction (x_program x) (x_new x) (x_number x) (x_rows x) (n :: x_gone x)) s
        else Replies Failed x s
      else Replies Accepted x s
  end.
(** What is committed: src/cmd/up.rs:51, src/cmd/down.rs:49. *)
Definition outcome_of (x : transaction) (s : server) : option (option vtable) :=
  match x_new x with
  | Some (Some o) => Some (Some (VTable (x_rows x) o))
  | Some None => Some None
  | None =>
      match s_table s with
      | Some (Some t) =>
          Some (Some (VTable (filter (fun r => row_name r ∉ x_gone x) (t_rows t) ++ x_rows x) (t_next t)))
      | o => o
      end
  end.

(** One operation of command [i]: as the queries above. *)
Definition serve (i : nat) (q : query) (x : transaction) (s : server) : action :=
  match q with
  | AskSchema => Replies (Exists_ (bool_decide (is_Some (x_new x) \/ is_Some (s_table s)))) x s
  | MakeSchema =>
      if decide (is_Some (x_new x) \/ is_Some (s_table s)) then Replies Failed x s else
      if decide (Exists (fun y => is_Some (x_new y)) (others i s)) then Waits else
      Replies Accepted (Transaction (x_program x) (Some None) (x_number x) (x_rows x) (x_gone x)) s
  | MakeTable =>
      match x_new x with
      | Some None => Replies Accepted (Transaction (x_program x) (Some (Some 1%Z)) (x_number x) (x_rows x) (x_gone x)) s
      | _ => Replies Failed x s
      end
  | InsertRow v => insert_step i v x s
  | DeleteRow n => delete_step i n x s
  | Select => Replies (match visible x s with Some l => Rows l | None => Failed end) x s
  | Execute stmt =>
      Replies Accepted x (Server (s_table s) (s_running s) (s_trace s ++ [(i, stmt)]) (s_committed s) (s_ended s))
  | Commit =>
      Replies Accepted (Transaction (x_program x) None None [] [])
        (Server (outcome_of x s) (s_running s) (s_trace s) (s_committed s ++ [i]) (s_ended s))
  end.

(** ** What can happen *)

(** A command is started; it gets on by one operation; its operation fails (for any
    reason: a statement that fails, a deadlock, a broken connection); it is killed. *)
Inductive event :=
  | Start (i : nat) (c : invocation)
  | Step (i : nat)
  | Fails (i : nat)
  | Kill (i : nat).

Definition set_running (i : nat) (x : transaction) (s : server) : server :=
  Server (s_table s) (<[i := x]> (s_running s)) (s_trace s) (s_committed s) (s_ended s).
Definition set_program (p : program ()) (x : transaction) : transaction :=
  Transaction p (x_new x) (x_number x) (x_rows x) (x_gone x).
(** The transaction is dropped; whatever is not committed is rolled back. *)
Definition ends (i : nat) (r : exec ()) (s : server) : server :=
  Server (s_table s) (delete i (s_running s)) (s_trace s) (s_committed s) (<[i := r]> (s_ended s)).

(** [None]: this cannot happen now.  After an error PostgreSQL refuses to go on with a
    transaction; the commands do not try. *)
Definition happen (e : event) (s : server) : option server :=
  match e with
  | Start i c =>
      if decide (s_running s !! i = None /\ s_ended s !! i = None)
      then Some (set_running i (Transaction (program_of c) None None [] []) s)
      else None
  | Step i =>
      match s_running s !! i with
      | Some x =>
          match x_program x with
          | Stop r => Some (ends i r s)
          | Ask q k =>
              match serve i q x s with
              | Waits => None
              | Proceeds x' s' => Some (set_running i x' s')
              | Replies r x' s' => Some (set_running i (set_program (k r) x') s')
              end
          end
      | None => None
      end
  | Fails i =>
      match s_running s !! i with
      | Some x =>
          match x_program x with
          | Stop _ => None
          | Ask _ k => Some (set_running i (set_program (k Failed) (drop_number x)) s)
          end
      | None => None
      end
  | Kill i =>
      match s_running s !! i with Some _ => Some (ends i Killed s) | None => None end
  end.
(** One thing after the other. *)
Fixpoint unfolds (es : list event) (s : server) : option server :=
  match es with
  | [] => Some s
  | e :: es => match happen e s with Some s' => unfolds es s' | None => None end
  end.
