(** Specification vocabulary: snapshots whose names are names and whose free texts are what
    they should be, and snapshots whose difference can be said. *)
From Verif Require Import Base Text Types Changes SpecSnapshot SpecSql SpecLex SpecStatement SpecServer.

Definition attributes_spelled (c : column) : Prop :=
  nameable (col_name c) /\ type_spelled (col_type c) /\ forall d, col_default c = Some d -> expression_spelled d.
Definition constraint_spelled (c : constraint) : Prop :=
  match c with
  | CPrimaryKey c => Forall nameable (pk_columns c)
  | CUnique c => Forall nameable (uq_columns c)
  | CForeignKey c =>
      Forall nameable (fk_columns c) /\ nameable (fk_tschema c) /\ nameable (fk_ttable c) /\ Forall nameable (fk_tcolumns c) /\
      is_Some (match_meant (fk_match c)) /\ is_Some (action_meant (fk_update c)) /\ is_Some (action_meant (fk_delete c))
  | CCheck c => spelled (fun l => clear is_comma 0 l = Some 0) (ck_expression c)
  end.
Definition relation_spelled (r : relation) : Prop :=
  match r with
  | RTable t =>
      Forall attributes_spelled (tb_columns t) /\
      forall k c, tb_constraints t !! k = Some c -> nameable k /\ constraint_spelled c
  | RView v => is_Some (query_meant (vw_query v))
  | RIndex i =>
      nameable (ix_table i) /\ word_spelled (ix_method i) /\ Forall (spelled (fun l => clear is_comma 0 l = Some 0)) (ix_keys i)
  | RSequence q => word_spelled (sq_type q)
  end.
Definition function_spelled (f : function) : Prop :=
  is_Some (lex (fn_body f)) /\ spelled (fun l => clear function_stop 0 l = Some 0) (fn_returns f) /\
  word_spelled (fn_language f) /\ is_Some (lex (fn_volatility f)).
Definition spelled_db (d : database) : Prop :=
  (forall n, is_Some (db_schemas d !! n) -> nameable n /\ is_Some (lex n)) /\
  (forall n k r, relation_at d n k = Some r -> nameable k /\ relation_spelled r) /\
  (forall n k f, function_at d n k = Some f -> nameable k /\ function_spelled f).

(** ** What can be said

    Columns can neither be added to a table nor be created NOT NULL; functions and foreign
    keys cannot be created; checks are not deferrable; what is initially deferred is
    deferrable; keys and indexes have columns; new and old schemas have simple names. *)
Definition constraint_creatable (c : constraint) : Prop :=
  match c with
  | CPrimaryKey c => pk_columns c <> [] /\ (pk_initially c = true -> pk_deferrable c = true)
  | CUnique c => uq_columns c <> [] /\ (uq_initially c = true -> uq_deferrable c = true)
  | CForeignKey _ => False
  | CCheck c => ck_deferrable c = false /\ ck_initially c = false /\
      exists l a, lex (ck_expression c) = Some l /\ group l = Some (a, []) /\ a <> []
  end.
(** The same but for when it is checked. *)
Definition undeferred (c : constraint) : constraint :=
  match c with
  | CPrimaryKey c => CPrimaryKey (PrimaryKey (pk_schema c) (pk_table c) (pk_name c) (pk_columns c) false false)
  | CUnique c => CUnique (Unique (uq_schema c) (uq_table c) (uq_name c) (uq_columns c) false false)
  | CForeignKey c => CForeignKey (ForeignKey (fk_schema c) (fk_table c) (fk_name c) (fk_columns c) (fk_tschema c) (fk_ttable c)
      (fk_tcolumns c) (fk_match c) (fk_update c) (fk_delete c) false false)
  | CCheck c => CCheck (Check (ck_schema c) (ck_table c) (ck_name c) (ck_expression c) false false)
  end.
Definition constraint_alterable (c : constraint) : Prop :=
  match c with
  | CPrimaryKey c => pk_initially c = true -> pk_deferrable c = true
  | CUnique c => uq_initially c = true -> uq_deferrable c = true
  | CForeignKey c => fk_deferrable c = fk_initially c
  | CCheck c => ck_deferrable c = ck_initially c
  end.
Definition constraint_reachable (old : option constraint) (new : constraint) : Prop :=
  old = Some new \/
  (undeferred <$> old = Some (undeferred new) /\ constraint_alterable new) \/
  (undeferred <$> old <> Some (undeferred new) /\ constraint_creatable new).
Definition simple_name (n : str) : Prop := lex n = Some [Word n] /\ n ∉ reserved /\ clip n = n.

Definition difference_sayable (s t : database) : Prop :=
  (forall n, is_Some (db_schemas s !! n) /\ db_schemas t !! n = None \/
             db_schemas s !! n = None /\ is_Some (db_schemas t !! n) -> simple_name n) /\
  (forall n f, is_Some (function_at t n f) -> function_at s n f = function_at t n f) /\
  (forall n k i, relation_at t n k = Some (RIndex i) -> ix_keys i = [] ->
     exists j, relation_at s n k = Some (RIndex j) /\ ix_keys j = []) /\
  (forall n k c col, column_at t n k c = Some col ->
     is_Some (column_at s n k c) \/ ~ table_at s n k /\ col_notnull col = false) /\
  (forall n k c x, constraint_at t n k c = Some x -> constraint_reachable (constraint_at s n k c) x).
