(** The commands, with the files and databases they work on: src/cmd/*.rs, src/main.rs. *)
From Verif Require Import Base Text Types Changes Diff Sql History Dbh Expand Project Definitions.
From Verif Require Catalog Introspect.

(** ** Directories *)

(** The path [q] relative to [p]. *)
Fixpoint strip (p q : path) : option path :=
  match p, q with
  | [], q => Some q
  | a :: p, b :: q => if decide (a = b) then strip p q else None
  | _ :: _, [] => None
  end.
(** The part of a map whose keys have a new name. *)
Definition rekey {K A} `{Countable K} (f : path -> option K) (m : gmap path A) : gmap K A :=
  list_to_map (omap (fun e => (fun k => (k, e.2)) <$> f (e.1)) (map_to_list m)).
(** Everything below a directory. *)
Definition below (p : path) (fs : filesystem) : filesystem := rekey (strip p) fs.
(** The name of an entry of the directory [p]. *)
Definition child (p q : path) : option str :=
  match strip p q with Some [f] => Some f | _ => None end.

(** What the commands depend on besides the state: Project.v; the order in which a
    directory is listed; serde_yaml on version files ([None]: an error); reading and writing
    definitions (Definitions.v); orders of iteration; the time; what statements do; schema
    names; the catalogue of a database, and how it is queried (Introspect.v). *)
Record outside (S : Type) := Outside {
  setting_of : setting;
  listing_of : listing;
  decode_version : str -> option version;
  encode_version : version -> str;
  documents_of : documents;
  order_source : iter_order;
  order_target : iter_order;
  now : str;
  statement : str -> S -> option S;
  schema_ident : str -> option str;
  catalogue_of : pg S -> Catalog.catalogue;
  planner_of : Introspect.planner }.
Arguments setting_of {_} _.
Arguments listing_of {_} _.
Arguments decode_version {_} _ _.
Arguments encode_version {_} _ _.
Arguments documents_of {_} _.
Arguments order_source {_} _.
Arguments order_target {_} _.
Arguments now {_} _.
Arguments statement {_} _ _ _.
Arguments schema_ident {_} _ _.
Arguments catalogue_of {_} _ _.
Arguments planner_of {_} _.

(** Files, and databases by URL. *)
Record world (S : Type) := World { files : filesystem; servers : gmap str (pg S) }.
Arguments World {_} _ _.
Arguments files {_} _.
Arguments servers {_} _.

(** src/cmd/status.rs:29-55: what is printed. *)
Record report := Report { on_version : exec str; staged : list change; not_staged : list change }.

Section world.
  Context {S : Type} (o : outside S).

  (** A file as an entry of a history directory (History.v), and back. *)
  Definition entry_of (n : node) : dirent :=
    match n with
    | Directory => Folder
    | Bytes b => match decode_version o b with Some v => Document v | None => Broken end
    end.
  Definition node_of (e : dirent) : node :=
    match e with
    | Folder => Directory
    | Document v => Bytes (encode_version o v)
    | Broken => Bytes []
    end.
  (** The directory [p] as a history directory. *)
  Definition history_at (p : path) (fs : filesystem) : hdir := entry_of <$> rekey (child p) fs.
  (** The files, after the history directory [p] changed from [d] to [d'].  Simplified: a
      file that is written with the version it has keeps its text (the program writes it anew,
      which makes a difference only for a text it did not write itself). *)
  Definition store (p : path) (d d' : hdir) (fs : filesystem) : filesystem :=
    kmap (fun f => p ++ [f]) (node_of <$> filter (fun e => d !! (e.1) <> Some (e.2)) d') ∪ fs.

  (** A command of History.v, in the directory [p]. *)
  Definition in_history {A} (p : path) (m : io hdir A) : io filesystem A :=
    fun '(k, fs) =>
      if is_directory fs p then
        let d := history_at p fs in
        let '(r, (k', d')) := m (k, d) in (r, (k', store p d d' fs))
      else (Raise FileError, (k, fs)).
  (** A command on files. *)
  Definition on_files {A} (m : io filesystem A) : io (world S) A :=
    fun '(k, w) => let '(r, (k', fs)) := m (k, files w) in (r, (k', World fs (servers w))).
  (** [Client::connect], [transaction], and the end of the transaction when it is dropped. *)
  Definition on_server {A} (url : str) (m : io (session S) A) : io (world S) A :=
    fun '(k, w) =>
      match servers w !! url with
      | None => (Raise DbError, (k, w))
      | Some db =>
          let '(r, (k', s)) := m (k, Session db db) in
          (r, (k', World (files w) (<[url := rolled_back s]> (servers w))))
      end.

  Definition discovered (cwd : path) : io (world S) project :=
    iread (fun w => discover_project (setting_of o) (files w) cwd).
  Definition resolved {A} (r : exec A) : io (world S) A := iread (fun _ => r).

  (** ** src/cmd *)

  (** src/definition/mod.rs:33-43, load_snpashot; the directory is given with everything
      below it. *)
  Definition load_definitions (fs : filesystem) : exec database := load_definition_files (documents_of o) fs.
  (** src/definition/mod.rs:18-31, save_snapshot *)
  Definition save_snapshot (p : path) (db : database) : io filesystem () :=
    do text <- iread (fun _ => saved_text (documents_of o) db);
    file_write p text.
  (** src/introspection/mod.rs, introspect, for the schema [public] *)
  Definition introspect (db : pg S) : exec database :=
    Introspect.introspect_catalogue (planner_of o) (catalogue_of o db) [L "public"].

  (** src/cmd/init.rs:7-41, init *)
  Definition cmd_init (cwd : path) : io filesystem () :=
    do existing <- (fun s => (Ret (discover_project (setting_of o) (s.2) cwd), s));
    match existing with
    | Ret _ => iret ()
    | _ =>
        do proj <- initialize_project (setting_of o) cwd;
        do history <- iread (fun _ => resolve_default_history_dir proj);
        do definitions <- iread (fun _ => resolve_default_definitions_dir proj);
        do _ <- directory_create_all [] history;
        do _ <- directory_create_all [] definitions;
        do db <- iread (fun _ =>
          match apply_all (v_changes new_init) database_new with
          | (db, Ok _) =>
              match apply_all (v_changes (new_stage (v_name new_init))) db with
              | (db, Ok _) => Ret db
              | (_, Err e) => Raise (SnapshotFailed e)
              end
          | (_, Err e) => Raise (SnapshotFailed e)
          end);
        do _ <- in_history history init_history;
        save_snapshot (definitions ++ [L "public.yaml"]) db
    end.

  (** src/cmd/stage.rs:8-44, stage *)
  Definition cmd_stage (cwd : path) (profile : str) : io (world S) () :=
    do proj <- discovered cwd;
    do history <- resolved (resolve_history_dir proj profile);
    do definitions <- resolved (resolve_definitions_dir proj profile);
    on_files (fun s =>
      in_history history
        (stage (listing_of o) (order_source o) (order_target o)
           (load_definitions (below definitions (s.2)))) s).

  (** src/cmd/reset.rs:7-20, reset *)
  Definition cmd_reset (cwd : path) (profile : str) : io (world S) () :=
    do proj <- discovered cwd;
    do history <- resolved (resolve_history_dir proj profile);
    on_files (in_history history (reset (listing_of o))).

  (** src/cmd/make.rs:8-34, make *)
  Definition cmd_make (cwd : path) (profile : str) (version : option str) : io (world S) () :=
    do proj <- discovered cwd;
    do history <- resolved (resolve_history_dir proj profile);
    on_files (in_history history (make (listing_of o) (now o) version)).

  (** src/cmd/up.rs:9-54, up *)
  Definition cmd_up (cwd : path) (profile : str) (version : option str) : io (world S) () :=
    do proj <- discovered cwd;
    do history <- resolved (resolve_default_history_dir proj);
    do url <- resolved (resolve_database_url proj profile);
    do schema <- resolved (resolve_metadata_schema proj profile);
    fun s =>
      on_server url
        (if is_directory (files (s.2)) history
         then up (statement o) (schema_ident o) (listing_of o) (history_at history (files (s.2))) schema version
         else iread (fun _ => Raise FileError)) s.

  (** src/cmd/down.rs:5-52, down *)
  Definition cmd_down (cwd : path) (profile : str) (version : option str) : io (world S) () :=
    do proj <- discovered cwd;
    do url <- resolved (resolve_database_url proj profile);
    do schema <- resolved (resolve_metadata_schema proj profile);
    on_server url (down (statement o) (schema_ident o) schema version).

  (** src/cmd/status.rs:60-70, try_get_db_current_version, and 31-34: an error is printed
      in the place of the version. *)
  Definition database_version (url schema : str) : io (world S) (exec str) :=
    fun s =>
      match on_server url (do v <- db_current_version (schema_ident o) schema; iret (v_name v)) s with
      | (Ret v, s') => (Ret (Ret v), s')
      | (Raise e, s') => (Ret (Raise e), s')
      | (Abort, s') => (Abort, s')
      | (Hang, s') => (Hang, s')
      | (Killed, s') => (Killed, s')
      end.
  (** src/cmd/status.rs:15-58, status *)
  Definition cmd_status (cwd : path) (profile : str) : io (world S) report :=
    do proj <- discovered cwd;
    do history <- resolved (resolve_default_history_dir proj);
    do definitions <- resolved (resolve_default_definitions_dir proj);
    do url <- resolved (resolve_database_url proj profile);
    do d <- iread (fun w =>
      if is_directory (files w) history then Ret (history_at history (files w)) else Raise FileError);
    do _ <- iread (fun _ => from_dir (listing_of o) d);
    do target <- iread (fun w => load_definitions (below definitions (files w)));
    do v <- iread (fun _ => get_version d STAGE);
    do source <- iread (fun _ => calculate_snapshot d STAGE);
    do schema <- resolved (resolve_metadata_schema proj profile);
    do current <- database_version url schema;
    iret (Report current (v_changes v) (compare_diff (order_source o) (order_target o) source target)).

  (** src/cmd/clone.rs:7-22, clone *)
  Definition cmd_clone (cwd : path) (profile : str) : io (world S) () :=
    do proj <- discovered cwd;
    do url <- resolved (resolve_database_url proj profile);
    do definitions <- resolved (resolve_default_definitions_dir proj);
    do db <- iread (fun w => match servers w !! url with
                             | Some pg => introspect pg
                             | None => Raise DbError
                             end);
    on_files (save_snapshot (definitions ++ [L "public.yaml"]) db).

  (** src/cmd/sync.rs:5-7, sync: [todo!()] *)
  Definition cmd_sync (cwd : path) (profile : str) : io (world S) () := iread (fun _ => Abort).

  (** ** src/main.rs *)

  (** What is printed is not modelled further. *)
  Definition printed {A} (m : io (world S) A) : io (world S) () := do _ <- m; iret ().
End world.

(** A subcommand: its name, and whether it has the arguments [--profile] and [--version]. *)
Record subcommand := Subcommand { s_name : str; s_profile : bool; s_version : bool }.
(** src/main.rs:21-70 *)
Definition subcommands : list subcommand :=
  [Subcommand (L "init") false false;
   Subcommand (L "status") true false;
   Subcommand (L "stage") true false;
   Subcommand (L "reset") true false;
   Subcommand (L "make") true true;
   Subcommand (L "up") true true;
   Subcommand (L "down") true true;
   Subcommand (L "clone") false false;
   Subcommand (L "print") false false;
   Subcommand (L "sync") true false].
(** A command line: a subcommand, and the arguments that are given. *)
Record invocation := Invocation { i_command : str; i_profile : option str; i_version : option str }.

(** src/main.rs:93-95, get_profile: clap has no value for an argument that the subcommand
    does not have. *)
Definition profile_argument (s : subcommand) (i : invocation) : exec str :=
  if s_profile s then Ret (default (L "database") (i_profile i)) else Abort.
(** src/main.rs:96-98, get_version: only called where the argument exists. *)
Definition version_argument (i : invocation) : option str := i_version i.
(** clap: the subcommand exists and has the arguments given. *)
Definition accepts (i : invocation) (s : subcommand) : bool :=
  bool_decide (s_name s = i_command i) &&
  (s_profile s || bool_decide (i_profile i = None)) && (s_version s || bool_decide (i_version i = None)).
Definition parse_arguments (i : invocation) : option subcommand :=
  match filter (fun s => accepts i s = true) subcommands with s :: _ => Some s | [] => None end.

Section main.
  Context {S : Type} (o : outside S).

  (** src/main.rs:74-87 *)
  Definition dispatch (cwd : path) (s : subcommand) (i : invocation) : io (world S) () :=
    let profile := profile_argument s i in
    let version := version_argument i in
    if decide (s_name s = L "init") then on_files (cmd_init o cwd)
    else if decide (s_name s = L "status") then do p <- resolved profile; printed (cmd_status o cwd p)
    else if decide (s_name s = L "stage") then do p <- resolved profile; cmd_stage o cwd p
    else if decide (s_name s = L "reset") then do p <- resolved profile; cmd_reset o cwd p
    else if decide (s_name s = L "make") then do p <- resolved profile; cmd_make o cwd p version
    else if decide (s_name s = L "up") then do p <- resolved profile; cmd_up o cwd p version
    else if decide (s_name s = L "down") then do p <- resolved profile; cmd_down o cwd p version
    else if decide (s_name s = L "clone") then do p <- resolved profile; cmd_clone o cwd p
    else if decide (s_name s = L "sync") then do p <- resolved profile; cmd_sync cwd p
    else iread (fun _ => Abort).

  (** How the process ends: with an exit status, never, or by a signal. *)
  Inductive process_end := Exit (status : nat) | Forever | Signal.
  (** Displaying an error: [SnapshotError] cannot be displayed
      (src/snapshot/error.rs:105-109). *)
  Definition displays (e : herror) : bool :=
    match e with SnapshotFailed _ => false | _ => true end.
  (** src/main.rs:14-91, main: an error is displayed; a panic ends the process with status
      101, clap rejects a command line with status 2. *)
  Definition main (cwd : path) (i : invocation) (k : nat) (w : world S) : process_end * world S :=
    match parse_arguments i with
    | None => (Exit 2, w)
    | Some s =>
        let '(r, (_, w')) := dispatch cwd s i (k, w) in
        (match r with
         | Ret _ => Exit 0
         | Raise e => if displays e then Exit 0 else Exit 101
         | Abort => Exit 101
         | Hang => Forever
         | Killed => Signal
         end, w')
    end.
End main.
