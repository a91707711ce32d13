(** Projects and their configuration: src/project/mod.rs; and the files they consist of. *)
From Verif Require Import Base Text History Expand.

(** ** Files *)

(** An absolute path: its components. *)
Notation path := (list str).
(** A file system.  Symbolic links and permissions are not modelled; a file is its
    content. *)
Inductive node :=
  | Directory
  | Bytes (content : str).
Global Instance node_eq_dec : EqDecision node.
Proof. solve_decision. Defined.
Notation filesystem := (gmap path node).

(** The root always exists. *)
Definition is_directory (fs : filesystem) (p : path) : bool :=
  bool_decide (p = []) || bool_decide (fs !! p = Some Directory).
(** [Path::exists] *)
Definition file_exists (fs : filesystem) (p : path) : bool := bool_decide (is_Some (fs !! p)).
(** [File::create]: creates or truncates. *)
Definition file_create (p : path) (fs : filesystem) : exec () * filesystem :=
  if is_directory fs (take (pred (length p)) p)
  then match fs !! p with
       | Some Directory => (Raise FileError, fs)
       | _ => (Ret (), <[p := Bytes []]> fs)
       end
  else (Raise FileError, fs).
(** [std::fs::write]; a file that is partly written counts as empty. *)
Definition file_write (p : path) (content : str) : io filesystem () :=
  do _ <- istep (file_create p);
  istep (fun fs => (Ret (), <[p := Bytes content]> fs)).
(** One step of [std::fs::create_dir_all]. *)
Definition directory_create (p : path) : io filesystem () :=
  istep (fun fs =>
    if is_directory fs p then (Ret (), fs)
    else match fs !! p with
         | None => (Ret (), <[p := Directory]> fs)
         | Some _ => (Raise FileError, fs)
         end).
(** [std::fs::create_dir_all]: from the root downwards. *)
Fixpoint directory_create_all (above : path) (below : list str) : io filesystem () :=
  match below with
  | [] => iret ()
  | c :: below =>
      do _ <- directory_create (above ++ [c]);
      directory_create_all (above ++ [c]) below
  end.

(** The components of a path that is given as a text. *)
Fixpoint split_slash (component s : str) : list str :=
  match s with
  | [] => [component]
  | c :: s => if decide (c = 47%N) then component :: split_slash [] s else split_slash (component ++ [c]) s
  end.
(** A component follows; the model resolves [..] at once. *)
Definition enter (p : path) (component : str) : path :=
  if decide (component = [] \/ component = L ".") then p
  else if decide (component = L "..") then take (pred (length p)) p
  else p ++ [component].
(** [Path::join]: an absolute path replaces the base. *)
Definition join (base : path) (s : str) : path :=
  foldl enter (if starts_with (L "/") s then [] else base) (split_slash [] s).

(** ** Configurations *)

(** src/project/mod.rs:94-100 *)
Record yaml_profile := YamlProfile {
  y_database_url : str; y_history : str; y_definitions : str; y_metadata_schema : str }.
(** src/project/mod.rs:89-92 *)
Notation yaml_project := (gmap str yaml_profile).
(** src/project/mod.rs:80-87 *)
Record profile := Profile {
  p_name : str; p_database_url : str; p_history : path; p_definitions : path;
  p_metadata_schema : str }.
(** src/project/mod.rs:38-42 *)
Record project := Project { base_dir : path; profiles : list profile }.

(** src/project/mod.rs:102-103 *)
Definition CONFIG_FILE : str := L ".podo.yaml".
Definition DEFAULT_PROFILE : str := L "database".

(** src/project/mod.rs:45-54, get_profile *)
Fixpoint find_profile (profiles : list profile) (name : str) : exec profile :=
  match profiles with
  | [] => Raise (ProfileNotFound name)
  | p :: profiles => if decide (p_name p = name) then Ret p else find_profile profiles name
  end.
Definition get_profile (proj : project) (name : str) : exec profile := find_profile (profiles proj) name.
(** src/project/mod.rs:56-59 *)
Definition resolve_database_url (proj : project) (name : str) : exec str :=
  ex p <- get_profile proj name; Ret (p_database_url p).
(** src/project/mod.rs:60-63 *)
Definition resolve_history_dir (proj : project) (name : str) : exec path :=
  ex p <- get_profile proj name; Ret (p_history p).
(** src/project/mod.rs:64-67 *)
Definition resolve_definitions_dir (proj : project) (name : str) : exec path :=
  ex p <- get_profile proj name; Ret (p_definitions p).
(** src/project/mod.rs:68-70 *)
Definition resolve_default_history_dir (proj : project) : exec path :=
  resolve_history_dir proj DEFAULT_PROFILE.
(** src/project/mod.rs:71-73 *)
Definition resolve_default_definitions_dir (proj : project) : exec path :=
  resolve_definitions_dir proj DEFAULT_PROFILE.
(** src/project/mod.rs:74-77 *)
Definition resolve_metadata_schema (proj : project) (name : str) : exec str :=
  ex p <- get_profile proj name; Ret (p_metadata_schema p).

(** src/project/mod.rs:156-170, create_base_yaml_project *)
Definition base_yaml_project : yaml_project :=
  {[ DEFAULT_PROFILE := YamlProfile (L "postgresql://localhost:5432/postgres")
       (L "database/history") (L "database/definitions") (L "podo_meta") ]}.

(** What the configuration depends on besides the files: [\w] beyond ASCII and the
    environment (Expand.v); the order in which a HashMap is iterated; and serde_yaml, reading
    ([None]: not UTF-8, or an error) and writing. *)
Record setting := Setting {
  st_word : N -> bool;
  st_env : environment;
  st_order : yaml_project -> list (str * yaml_profile);
  st_order_perm : forall m, st_order m ≡ₚ map_to_list m;
  st_parse : str -> option yaml_project;
  st_print : yaml_project -> str }.

Section project.
  Context (st : setting).
  Definition expand (s : str) : str := expand_envvar (st_word st) (st_env st) s.

  (** src/project/mod.rs:143-151 *)
  Definition load_profile (base : path) (e : str * yaml_profile) : profile :=
    Profile (e.1) (expand (y_database_url (e.2))) (join base (expand (y_history (e.2))))
      (join base (expand (y_definitions (e.2)))) (y_metadata_schema (e.2)).
  (** src/project/mod.rs:139-154, load_project_from_str *)
  Definition load_project_from_str (base : path) (s : str) : exec project :=
    match st_parse st s with
    | Some y => Ret (Project base (load_profile base <$> st_order st y))
    | None => Raise BadConfig
    end.
  (** src/project/mod.rs:131-137, load_project_from_file *)
  Definition load_project_from_file (fs : filesystem) (base file : path) : exec project :=
    match fs !! file with
    | Some (Bytes s) => load_project_from_str base s
    | _ => Raise BadConfig
    end.
  (** src/project/mod.rs:107-120; [up] is the directory, its last component first. *)
  Fixpoint discover (fs : filesystem) (up : list str) : exec project :=
    let dir := reverse up in
    if file_exists fs (dir ++ [CONFIG_FILE])
    then load_project_from_file fs dir (dir ++ [CONFIG_FILE])
    else match up with
         | [] => Raise (ProjectNotFound dir)
         | _ :: up => discover fs up
         end.
  (** src/project/mod.rs:105-121, discover_project *)
  Definition discover_project (fs : filesystem) (cwd : path) : exec project :=
    discover fs (reverse cwd).

  (** src/project/mod.rs:123-129, initialize_project *)
  Definition initialize_project (base : path) : io filesystem project :=
    do _ <- (fun s => let '(r, s') := file_write (base ++ [CONFIG_FILE]) (st_print st base_yaml_project) s in
                      (unwrapped r, s'));
    iread (fun _ => load_project_from_str base (st_print st base_yaml_project)).
End project.
