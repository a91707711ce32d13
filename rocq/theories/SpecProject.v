(** Which project and which profile a command is about, and what it may touch. *)
From Verif Require Import Base History Dbh Expand Project World.

(** The configuration file of a directory. *)
Definition config (dir : path) : path := dir ++ [L ".podo.yaml"].
Definition enclosing (fs : filesystem) (cwd dir : path) : Prop :=
  dir `prefix_of` cwd /\ is_Some (fs !! config dir).
(** The nearest directory around [cwd] that has one. *)
Definition nearest (fs : filesystem) (cwd dir : path) : Prop :=
  enclosing fs cwd dir /\ forall dir', enclosing fs cwd dir' -> dir' `prefix_of` dir.

(** The configuration of the project that [cwd] lies in. *)
Definition configured (st : setting) (fs : filesystem) (cwd dir : path) (y : yaml_project) : Prop :=
  nearest fs cwd dir /\ exists s, fs !! config dir = Some (Bytes s) /\ st_parse st s = Some y.
(** The profile [name] of the project that [cwd] lies in: variables are expanded in its
    URL and its directories, and directories are relative to the project. *)
Definition profile_at (st : setting) (fs : filesystem) (cwd : path) (name : str) (p : profile) : Prop :=
  exists dir y yp, configured st fs cwd dir y /\ y !! name = Some yp /\
    p_name p = name /\
    p_database_url p = expand st (y_database_url yp) /\
    p_history p = join dir (expand st (y_history yp)) /\
    p_definitions p = join dir (expand st (y_definitions yp)) /\
    p_metadata_schema p = y_metadata_schema yp.

(** Two file systems agree on a directory and all that is in it. *)
Definition same_at (p : path) (fs fs' : filesystem) : Prop :=
  forall q, p `prefix_of` q -> fs !! q = fs' !! q.
(** They agree on everything else. *)
Definition same_outside (p : path) (fs fs' : filesystem) : Prop :=
  forall q, ~ p `prefix_of` q -> fs !! q = fs' !! q.
(** Two collections of databases agree except for one. *)
Definition same_servers {S} (url : str) (m m' : gmap str (pg S)) : Prop :=
  forall url', url' <> url -> m !! url' = m' !! url'.

(** The directory [cwd] exists. *)
Definition exists_dir (fs : filesystem) (cwd : path) : Prop :=
  forall dir, dir `prefix_of` cwd -> dir <> [] -> fs !! dir = Some Directory.

(** What a command that works on the history of a profile reads and writes: of the files, only
    the directory of that history is written, no database is touched, and the outcome depends
    on the profile's two directories only. *)
Definition local_files {S : Type} (o : outside S) (cwd : path) (name : str) (p : profile) (m : io (world S) ()) : Prop :=
  forall k w r k' w', profile_at (setting_of o) (files w) cwd name p -> m (k, w) = (r, (k', w')) ->
    same_outside (p_history p) (files w) (files w') /\ servers w' = servers w /\
    forall w2, profile_at (setting_of o) (files w2) cwd name p ->
      same_at (p_history p) (files w) (files w2) -> same_at (p_definitions p) (files w) (files w2) ->
      exists w2', m (k, w2) = (r, (k', w2')) /\ same_at (p_history p) (files w') (files w2').

(** Nothing changes but the files described by [P]. *)
Definition unchanged (P : path -> Prop) (fs0 fs : filesystem) : Prop :=
  forall q, ~ P q -> fs !! q = fs0 !! q.
(** What init writes. *)
Definition init_place (cwd q : path) : Prop :=
  q = config cwd \/ (cwd ++ [L "database"]) `prefix_of` q.
(** The profile of a new project. *)
Definition base_profile (cwd : path) : profile :=
  Profile (L "database") (L "postgresql://localhost:5432/postgres")
    (cwd ++ [L "database"; L "history"]) (cwd ++ [L "database"; L "definitions"]) (L "podo_meta").

(** The configuration that init writes is read back (serde_yaml). *)
Definition reads_base {S : Type} (o : outside S) : Prop :=
  st_parse (setting_of o) (st_print (setting_of o) base_yaml_project) = Some base_yaml_project.
(** Version files are read back as they were written; an empty file is not a version.
    (C55 reduces the first to serde_yaml.) *)
Definition codec {S : Type} (o : outside S) : Prop :=
  (forall v, decode_version o (encode_version o v) = Some v) /\ decode_version o [] = None.
