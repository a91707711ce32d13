(** Loading a directory of definition files: src/definition/mod.rs. *)
From Verif Require Import Base Types.

(** What [std::fs::read_dir] sees: entries in the order in which the system lists them.
    Symbolic links and unreadable entries are not modelled. *)
Inductive entry :=
  | File (name : str) (content : str)
  | Dir (name : str) (entries : list entry).

(** [Path::extension]: what follows the last dot of the file name, unless the name has no
    dot or its only dot is the first character (standard library). [ext] is accumulated
    from the right: [None] until a dot is met. *)
Fixpoint last_dot (s : str) : option (str * str) :=
  match s with
  | [] => None
  | c :: s' =>
      match last_dot s' with
      | Some (stem, ext) => Some (c :: stem, ext)
      | None => if decide (c = 46%N) then Some ([], s') else None
      end
  end.
(** See [last_dot]. *)
Definition extension (name : str) : option str :=
  if decide (name = [46%N; 46%N]) then None else
  match last_dot name with
  | Some ([], _) => None
  | Some (_, ext) => Some ext
  | None => None
  end.

(** src/definition/mod.rs:72-84, collect_yaml_file: the contents of the files found, in
    the order in which they are read (lines 38-39 and 46 read them afterwards). *)
Fixpoint collect_yaml_file (e : entry) : list str :=
  match e with
  | File name content => if decide (extension name = Some (L "yaml")) then [content] else []
  | Dir _ es => (fix go es := match es with
                              | [] => []
                              | e :: es => collect_yaml_file e ++ go es
                              end) es
  end.

(** src/definition/mod.rs:33-51: the files are parsed ([None]: an error) and merged one
    after the other into an empty snapshot.  Every file comes with the iteration order of
    the maps built from it.  The error value is not modelled. *)
Fixpoint load_files (d : database) (files : list (iter_order * option database)) : option database :=
  match files with
  | [] => Some d
  | (o, f) :: files =>
      match f with
      | None => None
      | Some f => match database_merge o f d with
                  | (d', Ok _) => load_files d' files
                  | (_, Err _) => None
                  end
      end
  end.

(** src/definition/mod.rs:33-43, load_snpashot; [parse] is [load_yaml_string] and [os]
    supplies an iteration order for each file read. *)
Definition load_snapshot (parse : str -> option database) (os : nat -> iter_order)
    (dir : entry) : option database :=
  load_files database_new (imap (fun i c => (os i, parse c)) (collect_yaml_file dir)).
