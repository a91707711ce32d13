(** Specification vocabulary: an index and the columns of its table. *)
From Verif Require Import Base Types Changes SpecSql SpecLex SpecStatement SpecServer.

Definition adds_column (n b x : str) (c : change) : Prop :=
  match c with AddColumn s t y _ _ _ => (s, t, y) = (n, b, x) | _ => False end.
(** The changes after which a table may have columns that it did not have. *)
Definition brings_columns (n b : str) (c : change) : Prop :=
  match c with
  | AddColumn s t _ _ _ _ | CreateTable s t _ | RenameColumn s t _ _ => (s, t) = (n, b)
  | _ => False
  end.
(** A column as the server has it. *)
Definition server_column (sv : server) (n b x : str) : option column_spec :=
  match sv !! n ≫= fun sc => ss_relations sc !! b with Some (HasTable cols _) => cols !! x | _ => None end.
(** A server that looks for the columns of an index: a key that is just a name is a column of
    the table. *)
Definition indexes_checked {S : Type} (sem : str -> S -> option S) (view : S -> server) : Prop :=
  forall sql u u' k n b unique method keys e x, sem sql u = Some u' ->
    read_statement sql = Some (DoCreateIndex k n b unique method keys) -> [e] ∈ keys -> name_of e = Some x ->
    is_Some (server_column (view u) n b x).
