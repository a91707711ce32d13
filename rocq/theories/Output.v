(** What the commands print: src/cmd/{up,down,make,stage,status}.rs.

    [told] is [io] with the lines printed so far.  The process may be killed before every
    line, too; the number counts lines like other operations.  (Printing to a pipe that was
    closed panics.  For files and databases this is the same as being killed there.)
    What a terminal makes of the text is not modelled: [green], [red] and [dimmed] are what the crate
    colored does to it. *)
From Verif Require Import Base Text Types Changes Diff Sql History Dbh Expand Project Definitions World.

Definition told (S A : Type) : Type := nat * S -> (exec A * (nat * S)) * list str.
(** A computation that prints nothing. *)
Definition quietly {S A} (m : io S A) : told S A := fun s => (m s, []).
(** [println!] *)
Definition say {S} (line : str) : told S () :=
  fun '(k, s) => match k with
                 | 0 => ((Killed, (0, s)), [])
                 | S k => ((Ret (), (k, s)), [line])
                 end.
(** [?] *)
Definition tbind {S A B} (m : told S A) (f : A -> told S B) : told S B :=
  fun s => match m s with
           | ((Ret a, s'), out) => let '(r, out') := f a s' in (r, out ++ out')
           | ((Raise e, s'), out) => ((Raise e, s'), out)
           | ((Abort, s'), out) => ((Abort, s'), out)
           | ((Hang, s'), out) => ((Hang, s'), out)
           | ((Killed, s'), out) => ((Killed, s'), out)
           end.
Notation "'and' x '<-' m ';' k" := (tbind m (fun x => k))
  (at level 200, x pattern, m at level 100, k at level 200, right associativity).
(** One line after the other. *)
Fixpoint say_all {S} (lines : list str) : told S () :=
  match lines with
  | [] => quietly (iret ())
  | line :: lines => and _ <- say line; say_all lines
  end.

(** src/snapshot/changes/mod.rs:53-57, display_name: the name of the variant *)
Definition display_name (c : change) : str :=
  match c with
  | AddCheck _ _ _ _ _ _ => L "AddCheckChange"
  | AddColumn _ _ _ _ _ _ => L "AddColumnChange"
  | AddForeignKey _ _ _ _ _ _ _ _ _ _ _ _ => L "AddForeignKeyChange"
  | AddPrimaryKey _ _ _ _ _ _ => L "AddPrimaryKeyChange"
  | AddUnique _ _ _ _ _ _ => L "AddUniqueChange"
  | AlterCheck _ _ _ _ _ => L "AlterCheckChange"
  | AlterColumnSetDataType _ _ _ _ => L "AlterColumnSetDataTypeChange"
  | AlterColumnSetDefault _ _ _ _ => L "AlterColumnSetDefaultChange"
  | AlterColumnSetNotNull _ _ _ _ => L "AlterColumnSetNotNullChange"
  | AlterForeignKey _ _ _ _ _ => L "AlterForeignKeyChange"
  | AlterPrimaryKey _ _ _ _ _ => L "AlterPrimaryKeyChange"
  | AlterUnique _ _ _ _ _ => L "AlterUniqueChange"
  | CreateFunction _ _ _ _ _ _ => L "CreateFunctionChange"
  | CreateIndex _ _ _ _ _ _ => L "CreateIndexChange"
  | CreateSchema _ => L "CreateSchemaChange"
  | CreateSequence _ _ _ _ _ _ _ _ _ => L "CreateSequenceChange"
  | CreateTable _ _ _ => L "CreateTableChange"
  | CreateView _ _ _ => L "CreateViewChange"
  | DropCheck _ _ _ => L "DropCheckChange"
  | DropColumn _ _ _ => L "DropColumnChange"
  | DropForeignKey _ _ _ => L "DropForeignKeyChange"
  | DropFunction _ _ => L "DropFunctionChange"
  | DropIndex _ _ => L "DropIndexChange"
  | DropPrimaryKey _ _ _ => L "DropPrimaryKeyChange"
  | DropSchema _ => L "DropSchemaChange"
  | DropSequence _ _ => L "DropSequenceChange"
  | DropTable _ _ => L "DropTableChange"
  | DropUnique _ _ _ => L "DropUniqueChange"
  | DropView _ _ => L "DropViewChange"
  | RenameColumn _ _ _ _ => L "RenameColumnChange"
  end.

Section output.
  Context (green red dimmed : str -> str).

  (** ** up, down *)
  Section migrate.
    Context {S : Type} (sem : str -> S -> option S) (ident : str -> option str).

    (** src/cmd/up.rs:44-47 and src/cmd/down.rs:42-45 *)
    Fixpoint execute_all_told (stmts : list str) : told (session S) () :=
      match stmts with
      | [] => quietly (iret ())
      | stmt :: stmts =>
          and _ <- quietly (iunwrap (execute sem stmt));
          and _ <- say (L "    " ++ dimmed stmt);
          execute_all_told stmts
      end.
    (** src/cmd/up.rs:41-49 *)
    Fixpoint apply_versions_told (d : hdir) (schema : str) (names : list str) : told (session S) () :=
      match names with
      | [] => quietly (iret ())
      | n :: names =>
          and v <- quietly (iread (fun _ => get_version d n));
          and _ <- say (L "  Applying version " ++ green (v_name v));
          and _ <- execute_all_told (v_up v);
          and _ <- quietly (iunwrap (record_version ident schema v));
          apply_versions_told d schema names
      end.
    (** src/cmd/up.rs:9-54, up *)
    Definition up_told (l : listing) (d : hdir) (schema : str) (version : option str) : told (session S) () :=
      and h <- quietly (iread (fun _ => from_dir l d));
      and _ <- quietly (ensure_initialized ident schema);
      and current <- quietly (db_current_version ident schema);
      and to <- quietly (iread (fun _ =>
        match version with Some v => get_version d v | None => get_current_version h d end));
      and _ <- say (L "On database version: " ++ v_name current);
      and _ <- say (L "Applying upward migrations to " ++ v_name to ++ L ":");
      and versions <- quietly (iread (fun _ => get_upward_range d (v_name current) (v_name to)));
      match versions with
      | [] => say (L "  No migrations to apply.")
      | _ => and _ <- apply_versions_told d schema versions; quietly (commit sem)
      end.

    (** src/cmd/down.rs:39-47 *)
    Fixpoint revert_versions_told (schema : str) (names : list str) : told (session S) () :=
      match names with
      | [] => quietly (iret ())
      | n :: names =>
          and v <- quietly (iunwrap (recorded_version ident schema n));
          and _ <- say (L "  Reverting version " ++ green (v_name v));
          and _ <- execute_all_told (v_down v);
          and _ <- quietly (iunwrap (delete_version ident schema v));
          revert_versions_told schema names
      end.
    (** src/cmd/down.rs:5-52, down *)
    Definition down_told (schema : str) (version : option str) : told (session S) () :=
      and _ <- quietly (ensure_initialized ident schema);
      and current <- quietly (db_current_version ident schema);
      and _ <- say (L "On database version: " ++ v_name current);
      match (match version with Some v => Some v | None => v_previous current end) with
      | None => say (L "No migrations to apply. Already on the init version.")
      | Some to =>
          and _ <- say (L "Applying downward migrations to " ++ to ++ L ":");
          and versions <- quietly (get_downward_range ident schema (v_name current) to);
          match versions with
          | [] => say (L "  No migrations to apply.")
          | _ => and _ <- revert_versions_told schema versions; quietly (commit sem)
          end
      end.
    (** The database afterwards, and what was printed. *)
    Definition run_told (m : told (session S) ()) (k : nat) (db : pg S) : exec () * pg S * list str :=
      let '((r, (_, s)), out) := m (k, Session db db) in (r, rolled_back s, out).
  End migrate.

  (** ** make, stage *)

  (** src/cmd/make.rs:8-34, make *)
  Definition make_told (l : listing) (now : str) (name : option str) : told hdir () :=
    and _ <- quietly (iread (from_dir l));
    and v <- quietly (iread (fun d => get_version d STAGE));
    if is_empty v then say (L "Nothing to make. Stage is empty.") else
    and _ <- say (L "Made version: " ++ green (made_name now name));
    and _ <- quietly (save_version (set_name (made_name now name) v));
    quietly (save_version (new_stage (made_name now name))).

  (** src/cmd/stage.rs:26-30 *)
  Definition staged_line (c : change) : str :=
    L "    " ++ green (render_sql c) ++ L " " ++ dimmed (L "-- " ++ display_name c).
  (** src/cmd/stage.rs:25-39 *)
  Fixpoint stage_changes_told (cs : list change) (db : database) (v : version) : told hdir version :=
    match cs with
    | [] => quietly (iret v)
    | c :: cs =>
        and _ <- say (staged_line c);
        and r <- quietly (iread (fun _ => unwrap_result (revert c db)));
        match apply c db with
        | (db', Ok _) => stage_changes_told cs db' (add_down (render_sql r) (add_up (render_sql c) (add_change c v)))
        | (_, Err e) => quietly (iread (fun _ => Raise (SnapshotFailed e)))
        end
    end.
  (** src/cmd/stage.rs:8-44, stage *)
  Definition stage_told (l : listing) (os ot : iter_order) (definitions : exec database) : told hdir () :=
    and _ <- quietly (iread (from_dir l));
    and target <- quietly (iread (fun _ => definitions));
    and source <- quietly (iread (fun d => calculate_snapshot d STAGE));
    and v <- quietly (iread (fun d => get_version d STAGE));
    and _ <- say (L "Staging changes:");
    and _ <- (if decide (compare_diff os ot source target = []) then say (L "    No changes to stage.") else quietly (iret ()));
    and v <- stage_changes_told (compare_diff os ot source target) source v;
    quietly (save_version v).

  (** ** status *)

  (** [message] is the text of an error of the database: src/error.rs *)
  Context (message : herror -> str).
  (** src/cmd/status.rs:31-54 *)
  Definition status_lines (rep : report) : list str :=
    [L "On database version: " ++
       match on_version rep with Ret v => green v | Raise e => red (message e) | _ => [] end] ++
    (match staged rep with
     | [] => []
     | cs => L "Changes staged:" :: ((fun c => L "    " ++ green (render_sql c)) <$> cs)
     end) ++
    (match not_staged rep with
     | [] => []
     | cs => L "Changes not staged:" :: ((fun c => L "    " ++ red (render_sql c)) <$> cs)
     end) ++
    (if decide (staged rep = [] /\ not_staged rep = []) then [L "No changes."] else []).
  (** src/cmd/status.rs:15-58, status *)
  Definition status_told {S : Type} (o : outside S) (cwd : path) (profile : str) : told (world S) () :=
    and rep <- quietly (cmd_status o cwd profile);
    say_all (status_lines rep).
End output.
