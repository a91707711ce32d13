(** Specification vocabulary for migrating a database. *)
From Verif Require Import Base Text Types Changes Sql History SpecHistory Dbh.
From stdpp Require Import sorting.

(** The statements succeed one after the other and lead from [u] to [u']. *)
Inductive runs {S : Type} (sem : str -> S -> option S) : list str -> S -> S -> Prop :=
  | runs_nil u : runs sem [] u u
  | runs_cons stmt stmts u u1 u' :
      sem stmt u = Some u1 -> runs sem stmts u1 u' -> runs sem (stmt :: stmts) u u'.

(** The server accepts the end of a transaction in this state: what was put off holds. *)
Definition settled {S : Type} (sem : str -> S -> option S) (u : S) : Prop := is_Some (sem (L "COMMIT") u).

(** The schema has this version table. *)
Definition has_table {S : Type} (db : pg S) (schema : str) (t : vtable) : Prop :=
  pg_schemas db !! schema = Some (Some t).
(** The version table a command works with: the one there is, or, in a database without
    the schema, a new one that records init. *)
Definition finds {S : Type} (db : pg S) (schema : str) (t : vtable) : Prop :=
  has_table db schema t \/ (pg_schemas db !! schema = None /\ t = VTable [Row new_init 1] 2).
(** Equal but for the positions of sequences. *)
Definition same_contents {S : Type} (a b : pg S) : Prop :=
  pg_user a = pg_user b /\
  forall n, fmap t_rows <$> pg_schemas a !! n = fmap t_rows <$> pg_schemas b !! n.

(** The row that was added last. *)
Definition newest (rows : list row) (r : row) : Prop :=
  r ∈ rows /\ forall r', r' ∈ rows -> (r_order r' <= r_order r)%Z.
(** Rows for these versions, with consecutive numbers. *)
Fixpoint numbered (o : Z) (vs : list version) : list row :=
  match vs with [] => [] | v :: vs => Row v o :: numbered (o + 1) vs end.
(** What the constraints of the table guarantee. *)
Definition distinct (rows : list row) : Prop :=
  NoDup (v_name ∘ r_version <$> rows) /\ NoDup (r_order <$> rows).

(** A chain of versions that starts with init, numbered in this order. *)
Definition chained (t : vtable) : Prop :=
  (exists o rest, t_rows t = Row new_init o :: rest) /\
  linked None (r_version <$> t_rows t) /\
  NoDup (v_name ∘ r_version <$> t_rows t) /\
  StronglySorted Z.lt (r_order <$> t_rows t) /\
  Forall (fun r => r_order r < t_next t)%Z (t_rows t).

(** Values that the columns can hold. *)
Definition fits (v : version) : Prop :=
  let text := fun s : str => 0%N ∉ s in
  length (v_name v) <= 128 /\ text (v_name v) /\
  (forall p, v_previous v = Some p -> length p <= 128 /\ text p) /\
  Forall text (v_up v) /\ Forall text (v_down v).

(** The version [up] migrates to. *)
Definition target (d : hdir) (version : option str) (to : str) : Prop :=
  match version with
  | Some n => to = n /\ exists v, stored d n v
  | None => is_current d to
  end.

(** ** Reachable databases *)

(** One [up] or [down], with whatever outcome, also killed.  The history directory may be
    a different one every time. *)
Inductive migration {S : Type} (sem : str -> S -> option S) (ident : str -> option str) (schema : str) :
    pg S -> pg S -> Prop :=
  | migration_up l d version k db r db' :
      well_named d -> plain_dir d ->
      run (up sem ident l d schema version) k db = (r, db') -> migration sem ident schema db db'
  | migration_down version k db r db' :
      run (down sem ident schema version) k db = (r, db') -> migration sem ident schema db db'.
Inductive migrated {S : Type} (sem : str -> S -> option S) (ident : str -> option str) (schema : str) :
    pg S -> Prop :=
  | migrated_fresh db : pg_schemas db !! schema = None -> migrated sem ident schema db
  | migrated_step db db' : migrated sem ident schema db -> migration sem ident schema db db' ->
      migrated sem ident schema db'.

(** A history directory and a database that is only migrated with it.  [allowed] says
    which targets may be given to [up]. *)
Inductive together {S : Type} (sem : str -> S -> option S) (ident : str -> option str) (schema : str)
    (allowed : str -> Prop) : hdir -> pg S -> Prop :=
  | together_init k k' d db : init_history (k, ∅) = (Ret (), (k', d)) ->
      pg_schemas db !! schema = None -> together sem ident schema allowed d db
  | together_command d d' db : together sem ident schema allowed d db -> command d d' ->
      together sem ident schema allowed d' db
  | together_up d db l version k r db' : together sem ident schema allowed d db ->
      (forall n, version = Some n -> allowed n) ->
      run (up sem ident l d schema version) k db = (r, db') -> together sem ident schema allowed d db'
  | together_down d db version k r db' : together sem ident schema allowed d db ->
      run (down sem ident schema version) k db = (r, db') -> together sem ident schema allowed d db'.
