(** The life of a project: init in a new directory, then any sequence of commands, while the
    definitions are edited freely. *)
From Verif Require Import Base Types Changes History SpecHistory Dbh SpecDb Expand Project Definitions World SpecProject.

(** What a process finds may differ from the next (time, listings, hash orders, environment,
    what definitions are parsed to), but not the file formats and the server. *)
Definition same_machine {S : Type} (o o' : outside S) : Prop :=
  st_parse (setting_of o') = st_parse (setting_of o) /\ st_print (setting_of o') = st_print (setting_of o) /\
  decode_version o' = decode_version o /\ encode_version o' = encode_version o /\
  statement o' = statement o /\ schema_ident o' = schema_ident o.

(** The same, and serde_yaml reads definitions in the same way. *)
Definition same_reader {S : Type} (o o' : outside S) : Prop :=
  same_machine o o' /\ dc_read (documents_of o') = dc_read (documents_of o).

(** The directories and the database of a new project. *)
Definition history_of (dir : path) : path := dir ++ [L "database"; L "history"].
Definition definitions_of (dir : path) : path := dir ++ [L "database"; L "definitions"].
Definition new_url : str := L "postgresql://localhost:5432/postgres".
Definition new_schema : str := L "podo_meta".

(** A command of a project, run from the directory [cwd]: it does not run into its end unless
    it is [up] or [down], and [make] gets a new name, [up] not the name of the stage. *)
Inductive project_command {S : Type} (o : outside S) (dir cwd : path) (w : world S) :
    io (world S) () -> (exec () -> Prop) -> Prop :=
  | project_stage : project_command o dir cwd w (cmd_stage o cwd (L "database")) (fun r => r <> Killed)
  | project_reset : project_command o dir cwd w (cmd_reset o cwd (L "database")) (fun r => r <> Killed)
  | project_make name :
      files w !! (history_of dir ++ [made_name (now o) name ++ L ".yaml"]) = None ->
      plain_name (made_name (now o) name) ->
      project_command o dir cwd w (cmd_make o cwd (L "database") name) (fun r => r <> Killed)
  | project_up version : version <> Some (L "stage") ->
      project_command o dir cwd w (cmd_up o cwd (L "database") version) (fun _ => True)
  | project_down version :
      project_command o dir cwd w (cmd_down o cwd (L "database") version) (fun _ => True)
  | project_status :
      project_command o dir cwd w (printed (cmd_status o cwd (L "database"))) (fun _ => True).

(** [workspace o dir w]: the world [w] with the project in [dir]. *)
Inductive workspace {S : Type} (o : outside S) (dir : path) : world S -> Prop :=
  | workspace_init o' k w k' fs db :
      same_machine o o' ->
      exists_dir (files w) dir ->
      (forall dir', ~ enclosing (files w) dir dir') ->
      (forall q, config dir `prefix_of` q -> files w !! q = None) ->
      (forall q, (dir ++ [L "database"]) `prefix_of` q -> files w !! q = None) ->
      servers w !! new_url = Some db -> pg_schemas db !! new_schema = None ->
      cmd_init o' dir (k, files w) = (Ret (), (k', fs)) ->
      workspace o dir (World fs (servers w))
  | workspace_command o' cwd w m P k r k' w' :
      workspace o dir w -> same_machine o o' -> nearest (files w) cwd dir ->
      project_command o' dir cwd w m P -> m (k, w) = (r, (k', w')) -> P r ->
      workspace o dir w'
  | workspace_edit w fs :
      workspace o dir w -> same_outside (definitions_of dir) (files w) fs ->
      workspace o dir (World fs (servers w)).

(** What a command line is for; a profile that is not given is [database]. *)
Definition selected (profile : option str) : str := default (L "database") profile.
Inductive calls {S : Type} (o : outside S) (cwd : path) : invocation -> io (world S) () -> Prop :=
  | calls_init : calls o cwd (Invocation (L "init") None None) (on_files (cmd_init o cwd))
  | calls_status p : calls o cwd (Invocation (L "status") p None) (printed (cmd_status o cwd (selected p)))
  | calls_stage p : calls o cwd (Invocation (L "stage") p None) (cmd_stage o cwd (selected p))
  | calls_reset p : calls o cwd (Invocation (L "reset") p None) (cmd_reset o cwd (selected p))
  | calls_make p v : calls o cwd (Invocation (L "make") p v) (cmd_make o cwd (selected p) v)
  | calls_up p v : calls o cwd (Invocation (L "up") p v) (cmd_up o cwd (selected p) v)
  | calls_down p v : calls o cwd (Invocation (L "down") p v) (cmd_down o cwd (selected p) v)
  | calls_clone p : calls o cwd (Invocation (L "clone") p None) (cmd_clone o cwd (selected p))
  | calls_sync p : calls o cwd (Invocation (L "sync") p None) (cmd_sync cwd (selected p)).
(** The commands that the help lists. *)
Definition advertised : list str :=
  [L "init"; L "status"; L "stage"; L "reset"; L "make"; L "up"; L "down"; L "clone"; L "print"; L "sync"].
