(** The directory of definitions, read and written: src/definition/mod.rs, over the file
    system of Project.v. *)
From Verif Require Import Base Text Types Changes Load Node Yaml Ddl History Expand Project.

(** What this depends on besides the files: serde_yaml, reading a text as a mapping ([None]:
    an error) and writing one; the order in which files are listed; and the orders of
    iteration of the maps that are built from each file, and of those that are saved. *)
Record documents := Documents {
  dc_read : str -> option (list (yaml * yaml));
  dc_print : list (yaml * yaml) -> str;
  dc_files : filesystem -> list (list str * Project.node);
  dc_files_perm : forall fs, dc_files fs ≡ₚ map_to_list fs;
  dc_load_order : nat -> iter_order;
  dc_save_order : iter_order }.

(** [p] is reached by listing directories, beginning at the root [[]]. *)
Fixpoint listed (fs : filesystem) (above : list str) (p : list str) : bool :=
  bool_decide (fs !! above = Some Directory) &&
  match p with
  | [] => false
  | [_] => true
  | c :: p => listed fs (above ++ [c]) p
  end.
(** src/definition/mod.rs:72-84: an entry that is not a directory, with the extension yaml. *)
Definition definition_text (fs : filesystem) (e : list str * Project.node) : option str :=
  match e.2, last (e.1) with
  | Bytes text, Some name =>
      if bool_decide (extension name = Some (L "yaml")) && listed fs [] (e.1) then Some text else None
  | _, _ => None
  end.
(** src/definition/mod.rs:72-84, collect_yaml_file, and the texts of the files.  [read_dir]
    lists each directory in some order; the model allows every order of all the files. *)
Definition definition_texts (dc : documents) (fs : filesystem) : list str :=
  omap (definition_text fs) (dc_files dc fs).

(** [?] on the error of a definition: a [SnapshotError] is passed on as it is. *)
Definition from_definition {A} (r : dres A) : exec A :=
  match r with
  | Done a => Ret a
  | Fail (Snapshot e) => Raise (SnapshotFailed e)
  | Fail _ => Raise DefinitionsFailed
  | Panic => Abort
  end.
(** src/definition/mod.rs:45-51, load_yaml_file_into, for one file after the other
    (lines 38-40). *)
Fixpoint load_texts (dc : documents) (i : nat) (d : database) (texts : list str) : exec database :=
  match texts with
  | [] => Ret d
  | text :: texts =>
      match dc_read dc text with
      | None => Raise DefinitionsFailed
      | Some m =>
          ex f <- from_definition (load_document (dc_load_order dc i) m);
          match database_merge (dc_load_order dc i) f d with
          | (d', Ok _) => load_texts dc (S i) d' texts
          | (_, Err e) => Raise (SnapshotFailed e)
          end
      end
  end.
(** src/definition/mod.rs:33-43, load_snpashot.  The paths in [fs] are relative to the
    directory. *)
Definition load_definition_files (dc : documents) (fs : filesystem) : exec database :=
  if decide (fs !! [] = Some Directory) then load_texts dc 0 database_new (definition_texts dc fs)
  else Raise FileError.

(** src/definition/mod.rs:18-28: the text that save_snapshot writes. *)
Definition saved_text (dc : documents) (d : database) : exec str :=
  ex m <- from_definition (save_document (dc_save_order dc) d); Ret (dc_print dc m).
