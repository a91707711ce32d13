(** Specification of the directory of definitions. *)
From Verif Require Import Base Text Types Changes SpecSnapshot SpecMerge Load Node Yaml Ddl History Expand
  Project Definitions.

(** A definition file, reached from the directory through directories only. *)
Definition definition_at (fs : filesystem) (q : path) (text : str) : Prop :=
  fs !! q = Some (Bytes text) /\ (exists p name, q = p ++ [name] /\ definition_name name) /\
  forall p, p `prefix_of` q -> p <> q -> fs !! p = Some Directory.

(** The snapshot that the text of a file defines. *)
Definition defines (dc : documents) (text : str) (f : database) : Prop :=
  exists m o, dc_read dc text = Some m /\ load_document o m = Done f.

(** The snapshots of all definition files, by path. *)
Definition defined (dc : documents) (fs : filesystem) (l : gmap path database) : Prop :=
  (forall q f, l !! q = Some f -> exists text, definition_at fs q text /\ defines dc text f) /\
  (forall q text, definition_at fs q text -> is_Some (l !! q)).

(** No relation or function is in two files. *)
Definition apart (l : gmap path database) : Prop :=
  forall p q a b, l !! p = Some a -> l !! q = Some b -> p <> q -> no_clash a b.

(** serde_yaml reads back what it wrote for a snapshot. *)
Definition reads_back (dc : documents) : Prop :=
  forall o d m, save_document o d = Done m -> dc_read dc (dc_print dc m) = Some m.
