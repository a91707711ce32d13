(** Specification vocabulary: what a PostgreSQL database contains, what the statements of
    [SpecStatement] do to it, and which snapshot describes it.

    [perform] gives [None] if the statement fails, and also where its effect depends on
    something that is not modelled (what an expression refers to).  Data, privileges, types
    and expressions are not modelled: PostgreSQL may refuse more statements than [perform].
    The order of the columns of a table is left out. *)
From Verif Require Import Base Text Types Changes Sql SpecSnapshot SpecSql SpecLex SpecStatement.

(** ** What a database contains *)

Inductive relation_state :=
  | HasTable (columns : gmap str column_spec) (constraints : gmap str constraint_spec)
  | HasView (query : list token)
  | HasIndex (table : str) (unique : bool) (method : str) (keys : list (list token))
  | HasSequence (q : sequence_spec) (owner : option (str * str)).
Record schema_state := SchemaState {
  ss_relations : gmap str relation_state; ss_functions : gmap str function_spec }.
Notation server := (gmap str schema_state).

(** ** What statements do *)

Global Instance column_spec_eq_dec : EqDecision column_spec.
Proof. solve_decision. Defined.
Global Instance match_type_eq_dec : EqDecision match_type.
Proof. solve_decision. Defined.
Global Instance action_eq_dec : EqDecision action.
Proof. solve_decision. Defined.
Global Instance constraint_spec_eq_dec : EqDecision constraint_spec.
Proof. solve_decision. Defined.
Global Instance sequence_spec_eq_dec : EqDecision sequence_spec.
Proof. solve_decision. Defined.
Global Instance function_spec_eq_dec : EqDecision function_spec.
Proof. solve_decision. Defined.
Global Instance relation_state_eq_dec : EqDecision relation_state.
Proof. solve_decision. Defined.
Global Instance schema_state_eq_dec : EqDecision schema_state.
Proof. solve_decision. Defined.

Definition guard_ (b : bool) : option unit := if b then Some tt else None.

(** Keys have an index of the same name, so that they share the names of relations. *)
Definition is_key (k : constraint_spec) : bool :=
  match k with KPrimary _ _ _ | KUnique _ _ _ => true | _ => false end.
Definition key_named (n : str) (r : relation_state) : bool :=
  match r with
  | HasTable _ cks => match cks !! n with Some k => is_key k | None => false end
  | _ => false
  end.
Definition some_relation (P : str -> relation_state -> bool) (sc : schema_state) : bool :=
  existsb (fun e => P e.1 e.2) (map_to_list (ss_relations sc)).
Definition taken (sc : schema_state) (n : str) : bool :=
  match ss_relations sc !! n with Some _ => true | None => false end ||
  some_relation (fun _ r => key_named n r) sc.

(** A foreign key of some table (other than [but]) with a property. *)
Definition some_foreign_key (but : option (str * str)) (P : constraint_spec -> bool) (sv : server) : bool :=
  existsb (fun e => some_relation (fun t r =>
    match r with
    | HasTable _ cks =>
        negb (bool_decide (but = Some (e.1, t))) && existsb (fun k => P k.2) (map_to_list cks)
    | _ => false
    end) e.2) (map_to_list sv).
Definition refers_to (s t : str) (k : constraint_spec) : bool :=
  match k with
  | KForeign _ s' t' _ _ _ _ _ _ => bool_decide ((s', t') = (s, t))
  | _ => false
  end.
Definition same_columns (a b : list str) : bool :=
  bool_decide (Forall (fun c => c ∈ b) a) && bool_decide (Forall (fun c => c ∈ a) b).
Definition refers_to_columns (s t : str) (cs : list str) (k : constraint_spec) : bool :=
  match k with
  | KForeign _ s' t' cs' _ _ _ _ _ => bool_decide ((s', t') = (s, t)) && same_columns cs cs'
  | _ => false
  end.
Definition refers_to_column (s t n : str) (k : constraint_spec) : bool :=
  match k with
  | KForeign _ s' t' cs _ _ _ _ _ => bool_decide ((s', t') = (s, t)) && bool_decide (n ∈ cs)
  | _ => false
  end.

(** A name occurs in an expression (perhaps as something else than a column). *)
Definition mentions (n : str) (l : list token) : bool :=
  existsb (fun t => bool_decide (name_of t = Some n)) l.
(** The columns of a key or a foreign key. *)
Definition constrains (n : str) (k : constraint_spec) : bool :=
  match k with
  | KPrimary cs _ _ | KUnique cs _ _ | KForeign cs _ _ _ _ _ _ _ _ => bool_decide (n ∈ cs)
  | KCheck _ => false
  end.
Definition check_mentions (n : str) (k : constraint_spec) : bool :=
  match k with KCheck e => mentions n e | _ => false end.
(** The column itself is a key of the index; it occurs in an expression of it. *)
Definition indexes (n : str) (keys : list (list token)) : bool :=
  existsb (fun k => bool_decide (one_name k = Some n)) keys.
Definition key_mentions (n : str) (keys : list (list token)) : bool :=
  existsb (fun k => mentions n k && negb (bool_decide (one_name k = Some n))) keys.

(** What goes with a table: its indexes and the sequences it owns. *)
Definition of_table (t : str) (r : relation_state) : bool :=
  match r with
  | HasIndex t' _ _ _ => bool_decide (t' = t)
  | HasSequence _ (Some (t', _)) => bool_decide (t' = t)
  | _ => false
  end.
(** What goes with a column. *)
Definition of_column (t n : str) (r : relation_state) : bool :=
  match r with
  | HasIndex t' _ _ ks => bool_decide (t' = t) && indexes n ks
  | HasSequence _ (Some o) => bool_decide (o = (t, n))
  | _ => false
  end.

Definition not_null (n : str) (c : column_spec) : column_spec := ColumnSpec (cs_type c) true (cs_default c).
Definition is_primary (k : constraint_spec) : bool := match k with KPrimary _ _ _ => true | _ => false end.
Definition some_constraint (P : constraint_spec -> bool) (cks : gmap str constraint_spec) : bool :=
  existsb (fun k => P k.2) (map_to_list cks).

(** The columns that a foreign key refers to exist, and form a key. *)
Definition valid_target (sv : server) (s t : str) (cs : list str) : bool :=
  match sv !! s ≫= fun sc => ss_relations sc !! t with
  | Some (HasTable _ cks) =>
      some_constraint (fun k => match k with
                                | KPrimary cs' _ _ | KUnique cs' _ _ => same_columns cs cs'
                                | _ => false
                                end) cks
  | _ => false
  end.
Definition have_columns (cols : gmap str column_spec) (cs : list str) : bool :=
  bool_decide (NoDup cs) && bool_decide (Forall (fun c => is_Some (cols !! c)) cs).

(** The table after an action, and what else is left of its schema. *)
Definition alter (sv : server) (s t : str) (sc : schema_state)
    (cols : gmap str column_spec) (cks : gmap str constraint_spec) (a : table_action) :
    option (gmap str column_spec * gmap str constraint_spec * gmap str relation_state) :=
  let rels := ss_relations sc in
  match a with
  | ToAddColumn n c =>
      match cols !! n with Some _ => None | None => Some (<[n := c]> cols, cks, rels) end
  | ToDropColumn n =>
      cols !! n ≫= fun _ =>
      guard_ (negb (some_foreign_key None (refers_to_column s t n) sv)) ≫= fun _ =>
      guard_ (negb (some_constraint (check_mentions n) cks)) ≫= fun _ =>
      guard_ (negb (some_relation (fun _ r =>
        match r with HasIndex t' _ _ ks => bool_decide (t' = t) && key_mentions n ks | _ => false end) sc)) ≫= fun _ =>
      Some (delete n cols, filter (fun e => constrains n e.2 = false) cks,
            filter (fun e => of_column t n e.2 = false) rels)
  | ToRenameColumn n n' =>
      cols !! n ≫= fun c =>
      guard_ (bool_decide (cols !! n' = None)) ≫= fun _ =>
      guard_ (negb (some_foreign_key None (refers_to_column s t n) sv)) ≫= fun _ =>
      guard_ (negb (some_constraint (fun k => constrains n k || check_mentions n k) cks)) ≫= fun _ =>
      guard_ (negb (some_relation (fun _ r =>
        match r with
        | HasIndex t' _ _ ks => bool_decide (t' = t) && existsb (mentions n) ks
        | HasSequence _ (Some o) => bool_decide (o = (t, n))
        | _ => false
        end) sc)) ≫= fun _ =>
      Some (<[n' := c]> (delete n cols), cks, rels)
  | ToSetType n ty =>
      cols !! n ≫= fun c => guard_ (negb (serial ty)) ≫= fun _ =>
      Some (<[n := ColumnSpec ty (cs_notnull c) (cs_default c)]> cols, cks, rels)
  | ToSetDefault n d =>
      cols !! n ≫= fun c => Some (<[n := ColumnSpec (cs_type c) (cs_notnull c) d]> cols, cks, rels)
  | ToSetNotNull n b =>
      cols !! n ≫= fun c =>
      guard_ (b || negb (some_constraint (fun k => is_primary k && constrains n k) cks)) ≫= fun _ =>
      Some (<[n := ColumnSpec (cs_type c) b (cs_default c)]> cols, cks, rels)
  | ToAddConstraint n k =>
      guard_ (bool_decide (cks !! n = None)) ≫= fun _ =>
      match k with
      | KPrimary cs _ _ =>
          (* the columns of the primary key become NOT NULL *)
          guard_ (negb (taken sc n) && negb (some_constraint is_primary cks) && have_columns cols cs) ≫= fun _ =>
          Some (map_imap (fun c x => Some (if decide (c ∈ cs) then not_null c x else x)) cols,
                <[n := k]> cks, rels)
      | KUnique cs _ _ =>
          guard_ (negb (taken sc n) && have_columns cols cs) ≫= fun _ => Some (cols, <[n := k]> cks, rels)
      | KCheck _ => Some (cols, <[n := k]> cks, rels)
      | KForeign cs s' t' tcs _ _ _ _ _ =>
          guard_ (have_columns cols cs && bool_decide (length cs = length tcs) && valid_target sv s' t' tcs) ≫= fun _ =>
          Some (cols, <[n := k]> cks, rels)
      end
  | ToAlterConstraint n d i =>
      (* only foreign keys can be altered *)
      match cks !! n with
      | Some (KForeign cs s' t' tcs m u dl _ _) =>
          Some (cols, <[n := KForeign cs s' t' tcs m u dl d i]> cks, rels)
      | _ => None
      end
  | ToDropConstraint n =>
      cks !! n ≫= fun k =>
      guard_ (match k with
              | KPrimary cs _ _ | KUnique cs _ _ => negb (some_foreign_key None (refers_to_columns s t cs) sv)
              | _ => true
              end) ≫= fun _ =>
      Some (cols, delete n cks, rels)
  end.

(** The integer types, and the values of each. *)
Definition integer_range (ty : str) : option (Z * Z) :=
  if bool_decide (ty ∈ L <$> ["int2"; "smallint"]%string) then Some (-32768, 32767)%Z
  else if bool_decide (ty ∈ L <$> ["int4"; "int"; "integer"]%string) then Some (-2147483648, 2147483647)%Z
  else if bool_decide (ty ∈ L <$> ["int8"; "bigint"]%string) then Some (-9223372036854775808, 9223372036854775807)%Z
  else None.
Definition valid_sequence (q : sequence_spec) : bool :=
  match integer_range (ss_type q) with
  | Some (lo, hi) =>
      negb (ss_increment q =? 0)%Z && (lo <=? ss_min q)%Z && (ss_min q <? ss_max q)%Z && (ss_max q <=? hi)%Z &&
      (ss_min q <=? ss_start q)%Z && (ss_start q <=? ss_max q)%Z && (1 <=? ss_cache q)%Z
  | None => false
  end.

Definition add_relation_state (n : str) (r : relation_state) (sc : schema_state) : option schema_state :=
  guard_ (negb (taken sc n)) ≫= fun _ => Some (SchemaState (<[n := r]> (ss_relations sc)) (ss_functions sc)).
Definition drop_relation_state (is_kind : relation_state -> bool) (n : str) (sc : schema_state) : option schema_state :=
  ss_relations sc !! n ≫= fun r => guard_ (is_kind r) ≫= fun _ =>
  Some (SchemaState (delete n (ss_relations sc)) (ss_functions sc)).
Definition in_schema (s : str) (f : schema_state -> option schema_state) (sv : server) : option server :=
  sv !! s ≫= fun sc => f sc ≫= fun sc' => Some (<[s := sc']> sv).

Definition perform (st : statement) (sv : server) : option server :=
  match st with
  | DoCreateSchema n =>
      guard_ (bool_decide (sv !! n = None) && negb (starts_with (L "pg_") n)) ≫= fun _ =>
      Some (<[n := SchemaState ∅ ∅]> sv)
  | DoDropSchema n =>
      sv !! n ≫= fun sc =>
      guard_ (bool_decide (ss_relations sc = ∅) && bool_decide (ss_functions sc = ∅)) ≫= fun _ =>
      Some (delete n sv)
  | DoCreateTable s t cols =>
      guard_ (bool_decide (NoDup cols.*1)) ≫= fun _ =>
      in_schema s (add_relation_state t (HasTable (list_to_map cols) ∅)) sv
  | DoDropTable s t =>
      guard_ (negb (some_foreign_key (Some (s, t)) (refers_to s t) sv)) ≫= fun _ =>
      in_schema s (fun sc =>
        match ss_relations sc !! t with
        | Some (HasTable _ _) =>
            Some (SchemaState (filter (fun e => of_table t e.2 = false) (delete t (ss_relations sc))) (ss_functions sc))
        | _ => None
        end) sv
  | DoAlterTable s t a =>
      in_schema s (fun sc =>
        match ss_relations sc !! t with
        | Some (HasTable cols cks) =>
            alter sv s t sc cols cks a ≫= fun '(cols, cks, rels) =>
            Some (SchemaState (<[t := HasTable cols cks]> rels) (ss_functions sc))
        | _ => None
        end) sv
  | DoCreateIndex n s t u m ks =>
      in_schema s (fun sc =>
        match ss_relations sc !! t with
        | Some (HasTable _ _) => add_relation_state n (HasIndex t u m ks) sc
        | _ => None
        end) sv
  | DoDropIndex s n => in_schema s (drop_relation_state (fun r => match r with HasIndex _ _ _ _ => true | _ => false end) n) sv
  | DoCreateSequence s n q =>
      guard_ (valid_sequence q) ≫= fun _ => in_schema s (add_relation_state n (HasSequence q None)) sv
  | DoDropSequence s n => in_schema s (drop_relation_state (fun r => match r with HasSequence _ _ => true | _ => false end) n) sv
  | DoCreateView s v q => in_schema s (add_relation_state v (HasView q)) sv
  | DoDropView s v => in_schema s (drop_relation_state (fun r => match r with HasView _ => true | _ => false end) v) sv
  | DoCreateFunction s f x =>
      in_schema s (fun sc =>
        match ss_functions sc !! f with
        | Some _ => None
        | None => Some (SchemaState (ss_relations sc) (<[f := x]> (ss_functions sc)))
        end) sv
  | DoDropFunction s f =>
      in_schema s (fun sc =>
        ss_functions sc !! f ≫= fun _ => Some (SchemaState (ss_relations sc) (delete f (ss_functions sc)))) sv
  end.

(** ** What a snapshot means *)

(** A text that is one word. *)
Definition word_meant (x : str) : option str :=
  match lex x with Some [Word w] => Some w | _ => None end.
Definition default_meant (d : option str) : option (option (list token)) :=
  match d with None => Some None | Some d => Some <$> lex d end.
Definition column_meant (ty : str) (nn : bool) (d : option str) : option column_spec :=
  lex ty ≫= fun ty => default_meant d ≫= fun d => Some (ColumnSpec ty nn d).
Definition match_meant (m : str) : option match_type :=
  word_meant m ≫= fun w =>
  if bool_decide (w = L "full") then Some MatchFull
  else if bool_decide (w = L "partial") then Some MatchPartial
  else if bool_decide (w = L "simple") then Some MatchSimple
  else None.
Definition action_meant (a : str) : option action :=
  lex a ≫= fun l => action_of l ≫= fun '(a, l) => nothing_left l ≫= fun _ => Some a.
(** An expression, without a pair of parentheses around it. *)
Definition expression_meant (e : str) : option (list token) :=
  lex e ≫= fun l => match group l with Some (a, []) => Some a | _ => Some l end.
(** Nothing is initially deferred that is not deferrable. *)
Definition deferral_meant (d i : bool) : option unit := guard_ (d || negb i).

Definition constraint_meant (c : constraint) : option constraint_spec :=
  match c with
  | CPrimaryKey c =>
      deferral_meant (pk_deferrable c) (pk_initially c) ≫= fun _ =>
      Some (KPrimary (pk_columns c) (pk_deferrable c) (pk_initially c))
  | CUnique c =>
      deferral_meant (uq_deferrable c) (uq_initially c) ≫= fun _ =>
      Some (KUnique (uq_columns c) (uq_deferrable c) (uq_initially c))
  | CCheck c =>
      guard_ (negb (ck_deferrable c) && negb (ck_initially c)) ≫= fun _ =>
      expression_meant (ck_expression c) ≫= fun e => Some (KCheck e)
  | CForeignKey c =>
      deferral_meant (fk_deferrable c) (fk_initially c) ≫= fun _ =>
      match_meant (fk_match c) ≫= fun m => action_meant (fk_update c) ≫= fun u =>
      action_meant (fk_delete c) ≫= fun d =>
      Some (KForeign (fk_columns c) (fk_tschema c) (fk_ttable c) (fk_tcolumns c) m u d
              (fk_deferrable c) (fk_initially c))
  end.
Definition sequence_meant (ty : str) (inc mn mx st ca : Z) (cy : bool) : option sequence_spec :=
  word_meant ty ≫= fun ty => Some (SequenceSpec ty inc mn mx st ca cy).
(** A sequence belongs to a column if both names are given. *)
Definition owner_meant (q : sequence) : option (str * str) :=
  match sq_owned_table q, sq_owned_column q with Some t, Some c => Some (t, c) | _, _ => None end.
Definition query_meant (q : str) : option (list token) :=
  lex q ≫= fun l => one_statement l ≫= fun l => match l with [] => None | _ => Some l end.
Definition function_meant (body lang ret vol : str) : option function_spec :=
  lex ret ≫= fun ret => word_meant lang ≫= fun lang => word_meant vol ≫= fun vol =>
  Some (FunctionSpec [] ret lang vol body).

(** ** The database that a snapshot describes *)

Definition table_described (t : table) (cols : gmap str column_spec) (cks : gmap str constraint_spec) : Prop :=
  (forall n, option_Forall2 (fun c x => column_meant (col_type c) (col_notnull c) (col_default c) = Some x)
               (find_column n (tb_columns t)) (cols !! n)) /\
  (forall n, option_Forall2 (fun c x => constraint_meant c = Some x) (tb_constraints t !! n) (cks !! n)).
Definition relation_described (r : relation) (x : relation_state) : Prop :=
  match r, x with
  | RTable t, HasTable cols cks => table_described t cols cks
  | RView v, HasView q => query_meant (vw_query v) = Some q
  | RIndex i, HasIndex t u m ks =>
      ix_table i = t /\ ix_unique i = u /\ word_meant (ix_method i) = Some m /\ mapM lex (ix_keys i) = Some ks
  | RSequence q, HasSequence x o =>
      sequence_meant (sq_type q) (sq_increment q) (sq_min q) (sq_max q) (sq_start q) (sq_cache q) (sq_cycle q) = Some x /\
      owner_meant q = o
  | _, _ => False
  end.
Definition function_described (f : function) (x : function_spec) : Prop :=
  function_meant (fn_body f) (fn_language f) (fn_returns f) (fn_volatility f) = Some x.
Definition schema_described (sc : schema) (x : schema_state) : Prop :=
  (forall n, option_Forall2 relation_described (sc_relations sc !! n) (ss_relations x !! n)) /\
  (forall n, option_Forall2 function_described (sc_functions sc !! n) (ss_functions x !! n)).
Definition described (d : database) (sv : server) : Prop :=
  forall n, option_Forall2 schema_described (db_schemas d !! n) (sv !! n).

(** ** The statement that a change means *)

Definition meant (c : change) : option statement :=
  match c with
  | AddCheck s t n e d i =>
      constraint_meant (CCheck (Check s t n e d i)) ≫= fun k => Some (DoAlterTable s t (ToAddConstraint n k))
  | AddColumn s t n ty nn d => column_meant ty nn d ≫= fun c => Some (DoAlterTable s t (ToAddColumn n c))
  | AddForeignKey s t n cs s' t' tcs m u dl d i =>
      constraint_meant (CForeignKey (ForeignKey s t n cs s' t' tcs m u dl d i)) ≫= fun k =>
      Some (DoAlterTable s t (ToAddConstraint n k))
  | AddPrimaryKey s t n cs d i =>
      constraint_meant (CPrimaryKey (PrimaryKey s t n cs d i)) ≫= fun k => Some (DoAlterTable s t (ToAddConstraint n k))
  | AddUnique s t n cs d i =>
      constraint_meant (CUnique (Unique s t n cs d i)) ≫= fun k => Some (DoAlterTable s t (ToAddConstraint n k))
  | AlterCheck s t n d i | AlterForeignKey s t n d i | AlterPrimaryKey s t n d i | AlterUnique s t n d i =>
      deferral_meant d i ≫= fun _ => Some (DoAlterTable s t (ToAlterConstraint n d i))
  | AlterColumnSetDataType s t n ty => lex ty ≫= fun ty => Some (DoAlterTable s t (ToSetType n ty))
  | AlterColumnSetDefault s t n d => default_meant d ≫= fun d => Some (DoAlterTable s t (ToSetDefault n d))
  | AlterColumnSetNotNull s t n nn => Some (DoAlterTable s t (ToSetNotNull n nn))
  | CreateFunction s f body lang ret vol =>
      function_meant body lang ret vol ≫= fun x => Some (DoCreateFunction s f x)
  | CreateIndex s t n u m ks =>
      word_meant m ≫= fun m => mapM lex ks ≫= fun ks => Some (DoCreateIndex n s t u m ks)
  | CreateSchema n => Some (DoCreateSchema n)
  | CreateSequence s n ty inc mn mx st ca cy =>
      sequence_meant ty inc mn mx st ca cy ≫= fun q => Some (DoCreateSequence s n q)
  | CreateTable s t cs =>
      mapM (fun c => pair (cc_name c) <$> column_meant (cc_type c) (cc_notnull c) (cc_default c)) cs ≫= fun cs =>
      Some (DoCreateTable s t cs)
  | CreateView s v q => query_meant q ≫= fun q => Some (DoCreateView s v q)
  | DropCheck s t n | DropForeignKey s t n | DropPrimaryKey s t n | DropUnique s t n =>
      Some (DoAlterTable s t (ToDropConstraint n))
  | DropColumn s t n => Some (DoAlterTable s t (ToDropColumn n))
  | DropFunction s f => Some (DoDropFunction s f)
  | DropIndex s n => Some (DoDropIndex s n)
  | DropSchema n => Some (DoDropSchema n)
  | DropSequence s n => Some (DoDropSequence s n)
  | DropTable s t => Some (DoDropTable s t)
  | DropView s v => Some (DoDropView s v)
  | RenameColumn s t n n' => Some (DoAlterTable s t (ToRenameColumn n n'))
  end.
(** The text of a statement says what a change means. *)
Definition says (sql : str) (c : change) : Prop :=
  exists st, meant c = Some st /\ read_statement sql = Some st.

(** ** Spelling

    The names are names, and the free texts are what they should be: types, expressions, and
    so on, which do not run into what follows them. *)

(** No token outside of brackets has the property, and the brackets match. *)
Fixpoint clear (stop : token -> bool) (depth : nat) (l : list token) : option nat :=
  match l with
  | [] => Some depth
  | t :: l =>
      match depth with
      | O => if stop t || closes t then None else clear stop (if opens t then 1 else 0) l
      | S d => clear stop (if opens t then S depth else if closes t then d else depth) l
      end
  end.
Definition no_semicolon (l : list token) : Prop := existsb is_semicolon l = false.
Definition spelled (P : list token -> Prop) (x : str) : Prop :=
  exists l, lex x = Some l /\ l <> [] /\ no_semicolon l /\ P l.
Definition type_spelled : str -> Prop :=
  spelled (fun l => clear column_stop 0 l = Some 0 /\ clear type_stop 0 l = Some 0 /\ serial l = false).
Definition expression_spelled : str -> Prop :=
  spelled (fun l => clear is_comma 0 l = Some 0 /\
    match l with t :: l => clear column_stop (if opens t then 1 else 0) l = Some 0 | [] => False end).
Definition word_spelled (x : str) : Prop :=
  exists w, lex x = Some [Word w] /\ w ∉ reserved /\ clip w = w.
Definition column_spelled (c : create_table_column) : Prop :=
  nameable (cc_name c) /\ type_spelled (cc_type c) /\
  forall d, cc_default c = Some d -> expression_spelled d.
Definition well_spelled (c : change) : Prop :=
  match c with
  | AddCheck s t n e _ _ =>
      nameable s /\ nameable t /\ nameable n /\ spelled (fun l => clear is_comma 0 l = Some 0) e
  | AddColumn s t n ty nn d => nameable s /\ nameable t /\ column_spelled (CreateTableColumn n ty nn d)
  | AddForeignKey s t n cs s' t' tcs m u dl _ _ =>
      nameable s /\ nameable t /\ nameable n /\ Forall nameable cs /\ nameable s' /\ nameable t' /\
      Forall nameable tcs /\ is_Some (match_meant m) /\ is_Some (action_meant u) /\ is_Some (action_meant dl)
  | AddPrimaryKey s t n cs _ _ | AddUnique s t n cs _ _ =>
      nameable s /\ nameable t /\ nameable n /\ Forall nameable cs
  | AlterCheck s t n _ _ | AlterForeignKey s t n _ _ | AlterPrimaryKey s t n _ _ | AlterUnique s t n _ _
  | AlterColumnSetNotNull s t n _ | DropCheck s t n | DropColumn s t n | DropForeignKey s t n
  | DropPrimaryKey s t n | DropUnique s t n => nameable s /\ nameable t /\ nameable n
  | AlterColumnSetDataType s t n ty => nameable s /\ nameable t /\ nameable n /\ type_spelled ty
  | AlterColumnSetDefault s t n d =>
      nameable s /\ nameable t /\ nameable n /\ forall d', d = Some d' -> expression_spelled d'
  | RenameColumn s t n n' => nameable s /\ nameable t /\ nameable n /\ nameable n'
  | CreateFunction s f body lang ret vol =>
      nameable s /\ nameable f /\ is_Some (lex body) /\
      spelled (fun l => clear function_stop 0 l = Some 0) ret /\ word_spelled lang /\ is_Some (lex vol)
  | CreateIndex s t n _ m ks =>
      nameable s /\ nameable t /\ nameable n /\ word_spelled m /\
      Forall (spelled (fun l => clear is_comma 0 l = Some 0)) ks
  | CreateSchema n | DropSchema n => is_Some (lex n)
  | CreateSequence s n ty _ _ _ _ _ _ => nameable s /\ nameable n /\ word_spelled ty
  | CreateTable s t cs => nameable s /\ nameable t /\ Forall column_spelled cs
  | CreateView s v q => nameable s /\ nameable v /\ is_Some (query_meant q)
  | DropFunction s n | DropIndex s n | DropSequence s n | DropTable s n | DropView s n =>
      nameable s /\ nameable n
  end.

(** The changes whose statement says what they mean. *)
Definition sayable (c : change) : Prop :=
  match c with
  | AddCheck _ _ _ e d i =>
      d = false /\ i = false /\ exists l a, lex e = Some l /\ group l = Some (a, []) /\ a <> []
  | AddColumn _ _ _ _ _ _ | AddForeignKey _ _ _ _ _ _ _ _ _ _ _ _ | CreateFunction _ _ _ _ _ _ => False
  | AddPrimaryKey _ _ _ cs d i | AddUnique _ _ _ cs d i => cs <> [] /\ (i = true -> d = true)
  | AlterPrimaryKey _ _ _ d i | AlterUnique _ _ _ d i => i = true -> d = true
  | AlterCheck _ _ _ d i | AlterForeignKey _ _ _ d i => d = i
  | CreateIndex _ _ _ _ _ ks => ks <> []
  | CreateSchema n | DropSchema n => lex n = Some [Word n] /\ n ∉ reserved /\ clip n = n
  | CreateTable _ _ cs => Forall (fun c => cc_notnull c = false) cs
  | _ => True
  end.

(** ** Changes that do no less and no more than their statement

    PostgreSQL makes the columns of a primary key NOT NULL, and drops keys, indexes and
    sequences together with a column or a table. *)
Definition constrained_columns (c : constraint) : list str :=
  match c with
  | CPrimaryKey c => pk_columns c | CUnique c => uq_columns c | CForeignKey c => fk_columns c | CCheck _ => []
  end.
Definition plain_effect (c : change) (d : database) : Prop :=
  match c with
  | AddPrimaryKey s t _ cs _ _ =>
      forall n col, n ∈ cs -> column_at d s t n = Some col -> col_notnull col = true
  | DropColumn s t n =>
      (forall k c, constraint_at d s t k = Some c -> n ∉ constrained_columns c) /\
      (forall k i, relation_at d s k = Some (RIndex i) -> ix_table i = t ->
         Forall (fun e => lex e ≫= one_name <> Some n) (ix_keys i)) /\
      (forall k q, relation_at d s k = Some (RSequence q) -> owner_meant q <> Some (t, n))
  | DropTable s t =>
      (forall k i, relation_at d s k = Some (RIndex i) -> ix_table i <> t) /\
      (forall k q n, relation_at d s k = Some (RSequence q) -> owner_meant q <> Some (t, n))
  | _ => True
  end.

(** ** Statements in a row *)

(** The server reads the text, and does what it reads. *)
Definition obey (sql : str) (sv : server) : option server := read_statement sql ≫= fun st => perform st sv.
(** Names of schemas are not quoted in the statements; this one is not several tokens. *)
Definition single_name (c : change) : Prop :=
  match c with CreateSchema n | DropSchema n => exists t, lex n = Some [t] | _ => True end.
(** A server that has more than what is modelled here; [view] is what is modelled.  What it
    accepts of the generated statements are statements, and if the effect of one is modelled,
    this is its effect.  (It may refuse more, and it may accept statements whose effect is not
    modelled.) *)
Definition obedient {S : Type} (sem : str -> S -> option S) (view : S -> server) : Prop :=
  forall c u u', well_spelled c -> sem (render_sql c) u = Some u' ->
    (single_name c -> is_Some (read_statement (render_sql c))) /\
    forall sv, obey (render_sql c) (view u) = Some sv -> view u' = sv.
(** Every change says what it means, and has no effect besides, in the snapshot it is applied to. *)
Fixpoint faithful (d : database) (cs : list change) : Prop :=
  match cs with
  | [] => True
  | c :: cs => sayable c /\ plain_effect c d /\ forall d', apply c d = (d', Ok ()) -> faithful d' cs
  end.
