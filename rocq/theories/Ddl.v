(** Definitions as nodes: src/definition/ddl and src/definition/defaults.rs. *)
From Verif Require Import Base Text Types Changes Node Yaml Regex.

(** src/definition/ddl/error.rs:3-35; [Malformed] stands for the failures of
    src/definition/base, [Snapshot] for those of src/snapshot. *)
Inductive derror :=
  | UnexpectedNode (node : str)
  | NameRequired (node : str)
  | ChildNodesRequired (node : str)
  | AttributeRequired (node attribute : str)
  | InvalidTypeAttribute (node expected : str)
  | InvalidTypeExpression (e : str)
  | InvalidTableReference (r : str)
  | HasErrors (node : str) (l : list derror)
  | Malformed (e : yaml_error)
  | Snapshot (e : snapshot_error).

(** Rust's [Result] for these functions, with panics. *)
Notation dres := (outcome derror).

(** ** src/definition/ddl/coerce.rs *)

(** [ok_or_else] *)
Definition ok_or {A} (o : option A) (e : derror) : dres A :=
  match o with Some a => Done a | None => Fail e end.
(** coerce.rs:4-6 *)
Definition coerce_name (n : node) : dres str := ok_or (n_name n) (NameRequired (display_string n)).
(** coerce.rs:8-11 *)
Definition coerce_nodes (n : node) : dres (list node) :=
  ok_or (get_nodes n) (ChildNodesRequired (display_string n)).
(** coerce.rs:13-16 *)
Definition coerce_string_value (n : node) : dres str :=
  ok_or (get_string_value n) (InvalidTypeAttribute (display_string n) (L "string")).
(** coerce.rs:18-29 *)
Definition coerce_name_and_string_value (n : node) : dres (str * str) :=
  name ← ok_or (n_name n) (NameRequired (display_string n));
  v ← ok_or (get_string_value n) (InvalidTypeAttribute (display_string n) (L "string"));
  Done (name, v).
(** coerce.rs:31-42 *)
Definition coerce_name_and_string_varargs_value (n : node) : dres (str * list str) :=
  name ← ok_or (n_name n) (NameRequired (display_string n));
  v ← ok_or (get_string_varargs_value n) (InvalidTypeAttribute (display_string n) (L "...string"));
  Done (name, v).
(** coerce.rs:44-47 *)
Definition coerce_boolean_value (n : node) : dres bool :=
  ok_or (get_boolean_value n) (InvalidTypeAttribute (display_string n) (L "boolean")).
(** coerce.rs:49-52 *)
Definition coerce_integer_value (n : node) : dres Z :=
  ok_or (get_number_integer_value n) (InvalidTypeAttribute (display_string n) (L "integer")).
(** coerce.rs:59-62 *)
Definition coerce_string_varargs_value (n : node) : dres (list str) :=
  ok_or (get_string_varargs_value n) (InvalidTypeAttribute (display_string n) (L "...string")).

(** The loop found in every parser, e.g. primarykey.rs:29-40: an error is recorded and
    leaves the local variables [st] alone, a panic ends everything. *)
Fixpoint collect {S : Type} (step : S -> node -> dres S) (st : S) (errors : list derror)
    (l : list node) : dres (S * list derror) :=
  match l with
  | [] => Done (st, errors)
  | cn :: l =>
      match step st cn with
      | Done st' => collect step st' errors l
      | Fail e => collect step st (errors ++ [e]) l
      | Panic => Panic
      end
  end.

(** [if cond { errors.push(..) }] *)
Definition push_if (cond : bool) (e : derror) (errors : list derror) : list derror :=
  if cond then errors ++ [e] else errors.
(** [if !errors.is_empty() { return Err(has_errors(n, errors)) }] *)
Definition check_errors (n : node) (errors : list derror) : dres () :=
  match errors with [] => Done () | _ => Fail (HasErrors (display_string n) errors) end.
(** [Option::is_none] *)
Definition is_none {A} (o : option A) : bool := match o with None => true | _ => false end.
(** [Vec::is_empty], [String::is_empty] *)
Definition is_empty {A} (l : list A) : bool := match l with [] => true | _ => false end.
(** [match cn.type { "t" => .. }] *)
Definition of_type (n : node) (t : str) : bool := bool_decide (n_type n = t).

(** ** src/definition/defaults.rs *)
Definition default_deferrable : bool := false. (* defaults.rs:1-3 *)
Definition default_initially : bool := false. (* defaults.rs:5-7 *)
Definition default_match : str := L "SIMPLE". (* defaults.rs:9-11 *)
Definition default_update : str := L "NO ACTION". (* defaults.rs:13-15 *)
Definition default_delete : str := L "NO ACTION". (* defaults.rs:17-19 *)
Definition default_unique : bool := false. (* defaults.rs:21-23 *)
Definition default_method : str := L "btree". (* defaults.rs:25-27 *)
Definition default_language : str := L "SQL". (* defaults.rs:49-51 *)
Definition default_returns : str := L "void". (* defaults.rs:53-55 *)
Definition default_volatility : str := L "VOLATILE". (* defaults.rs:57-59 *)
Definition default_seq_type : str := L "int8". (* defaults.rs:61-63 *)
Definition default_increment : Z := 1. (* defaults.rs:65-67 *)
Definition default_cache : Z := 1. (* defaults.rs:69-71 *)
Definition default_cycle : bool := false. (* defaults.rs:73-75 *)

(** defaults.rs:77-87 *)
Definition get_sequence_min_value (increment : Z) (ty : str) : dres Z :=
  if (0 <=? increment)%Z then Done 1%Z
  else if bool_decide (ty = L "int2") then Done (-32768)%Z
  else if bool_decide (ty = L "int4") then Done (-2147483648)%Z
  else if bool_decide (ty = L "int8") then Done (-9223372036854775808)%Z
  else Panic.
(** defaults.rs:89-99 *)
Definition get_sequence_max_value (increment : Z) (ty : str) : dres Z :=
  if (increment <? 0)%Z then Done (-1)%Z
  else if bool_decide (ty = L "int2") then Done 32767%Z
  else if bool_decide (ty = L "int4") then Done 2147483647%Z
  else if bool_decide (ty = L "int8") then Done 9223372036854775807%Z
  else Panic.
(** defaults.rs:101-107 *)
Definition get_sequence_start (increment min max : Z) : Z :=
  if (0 <=? increment)%Z then min else max.

(** ** src/definition/ddl/column.rs *)

(** column.rs:36, [^(?P<type>[^=!]+)(?P<notnull>!)?(?:\s*=\s*(?P<default>.+))?$]; [.] is any
    character but the line feed. *)
Definition column_regex : regex :=
  RCat RStart
    (RCat (RGroup (L "type") (RPlus (RSet (fun c => negb ((c =? 61)%N || (c =? 33)%N)))))
      (RCat (ROpt (RGroup (L "notnull") (RChar 33)))
        (RCat (ROpt (RCat (RStar (RSet is_ws))
                      (RCat (RChar 61)
                        (RCat (RStar (RSet is_ws))
                          (RGroup (L "default") (RPlus (RSet (fun c => negb (c =? 10)%N))))))))
          REnd))).

(** column.rs:35-48 *)
Definition parse_column_expression (input : str) : dres (str * bool * option str) :=
  match regex_captures column_regex input with
  | Some caps =>
      ty ← unwrap (capture (L "type") caps);
      Done (trim ty, negb (is_none (capture (L "notnull") caps)), trim <$> capture (L "default") caps)
  | None => Fail (InvalidTypeExpression input)
  end.

(** column.rs:50-64 *)
Definition render_column_expression (ty : str) (notnull : bool) (default : option str) : str :=
  ty ++ (if notnull then L "!" else []) ++
  match default with Some d => L " = " ++ d | None => [] end.

(** column.rs:9-25 *)
Definition parse_column_definition (schema table : str) (n : node) : dres column :=
  _ ← assert_that (n_type n = L "column");
  name ← coerce_name n;
  expr ← coerce_string_value n;
  '(ty, notnull, default) ← match parse_column_expression expr with
                            | Fail e => Fail (HasErrors (display_string n) [e])
                            | r => r
                            end;
  Done (Column schema table name ty notnull default).

(** column.rs:27-33 *)
Definition render_column_definition (c : column) : node :=
  with_string_value (render_column_expression (col_type c) (col_notnull c) (col_default c))
    (with_name (col_name c) (node_new (L "column"))).

(** ** Constraints *)

(** The attributes common to all constraints, e.g. primarykey.rs:71-76. *)
Definition render_deferral (deferrable initially : bool) : list node :=
  (if bool_decide (deferrable <> default_deferrable)
   then [with_boolean_value deferrable (node_new (L "deferrable"))] else []) ++
  (if bool_decide (initially <> default_initially)
   then [with_boolean_value initially (node_new (L "initially deferred"))] else []).

(** primarykey.rs:30-37 *)
Definition pk_step (st : option (list str) * option bool * option bool) (cn : node) :
    dres (option (list str) * option bool * option bool) :=
  let '(cols, de, ini) := st in
  if of_type cn (L "primary key") then
    v ← coerce_string_varargs_value cn; Done (Some v, de, ini)
  else if of_type cn (L "deferrable") then
    v ← coerce_boolean_value cn; Done (cols, Some v, ini)
  else if of_type cn (L "initially deferred") then
    v ← coerce_boolean_value cn; Done (cols, de, Some v)
  else Fail (UnexpectedNode (display_string cn)).

(** primarykey.rs:14-64 *)
Definition parse_primary_key_definition (schema table : str) (n : node) : dres primary_key :=
  _ ← assert_that (n_type n = L "constraint");
  name ← coerce_name n;
  l ← coerce_nodes n;
  '((cols, de, ini), errors) ← collect pk_step (None, None, None) [] l;
  let errors := push_if (is_none cols) (AttributeRequired (display_string n) (L "primary key")) errors in
  let de := default default_deferrable de in
  let ini := default default_initially ini in
  _ ← check_errors n errors;
  cols ← unwrap cols;
  Done (PrimaryKey schema table name cols de ini).

(** primarykey.rs:66-81 *)
Definition render_primary_key_definition (c : primary_key) : node :=
  with_nodes
    (with_string_varargs_value (pk_columns c) (node_new (L "primary key")) ::
     render_deferral (pk_deferrable c) (pk_initially c))
    (with_name (pk_name c) (node_new (L "constraint"))).

(** unique.rs:30-37 *)
Definition uq_step (st : list str * option bool * option bool) (cn : node) :
    dres (list str * option bool * option bool) :=
  let '(cols, de, ini) := st in
  if of_type cn (L "unique") then
    v ← coerce_string_varargs_value cn; Done (v, de, ini)
  else if of_type cn (L "deferrable") then
    v ← coerce_boolean_value cn; Done (cols, Some v, ini)
  else if of_type cn (L "initially deferred") then
    v ← coerce_boolean_value cn; Done (cols, de, Some v)
  else Fail (UnexpectedNode (display_string cn)).

(** unique.rs:14-64 *)
Definition parse_unique_definition (schema table : str) (n : node) : dres unique :=
  _ ← assert_that (n_type n = L "constraint");
  name ← coerce_name n;
  l ← coerce_nodes n;
  '((cols, de, ini), errors) ← collect uq_step ([], None, None) [] l;
  let errors := push_if (is_empty cols) (AttributeRequired (display_string n) (L "unique")) errors in
  let de := default default_deferrable de in
  let ini := default default_initially ini in
  _ ← check_errors n errors;
  Done (Unique schema table name cols de ini).

(** unique.rs:66-79 *)
Definition render_unique_definition (c : unique) : node :=
  with_nodes
    (with_string_varargs_value (uq_columns c) (node_new (L "unique")) ::
     render_deferral (uq_deferrable c) (uq_initially c))
    (with_name (uq_name c) (node_new (L "constraint"))).

(** check.rs:28-39 *)
Definition ck_step (st : option str * option bool * option bool) (cn : node) :
    dres (option str * option bool * option bool) :=
  let '(expr, de, ini) := st in
  if of_type cn (L "check") then
    v ← coerce_string_value cn; Done (Some v, de, ini)
  else if of_type cn (L "deferrable") then
    v ← coerce_boolean_value cn; Done (expr, Some v, ini)
  else if of_type cn (L "initially deferred") then
    v ← coerce_boolean_value cn; Done (expr, de, Some v)
  else Fail (UnexpectedNode (display_string cn)).

(** check.rs:12-66 *)
Definition parse_check_constraint_definition (schema table : str) (n : node) : dres check :=
  _ ← assert_that (n_type n = L "constraint");
  name ← coerce_name n;
  l ← coerce_nodes n;
  '((expr, de, ini), errors) ← collect ck_step (None, None, None) [] l;
  let errors := push_if (is_none expr) (AttributeRequired (display_string n) (L "expression")) errors in
  let de := default default_deferrable de in
  let ini := default default_initially ini in
  _ ← check_errors n errors;
  expr ← unwrap expr;
  Done (Check schema table name expr de ini).

(** check.rs:68-85 *)
Definition render_check_constraint_definition (c : check) : node :=
  with_nodes
    (with_string_value (ck_expression c) (node_new (L "check")) ::
     render_deferral (ck_deferrable c) (ck_initially c))
    (with_name (ck_name c) (node_new (L "constraint"))).

(** foreignkey.rs:101-108 *)
Definition parse_table_reference (search_path input : str) : dres (str * str) :=
  match split_on 46 input with
  | [t] => Done (search_path, t)
  | [s; t] => Done (s, t)
  | _ => Fail (InvalidTableReference input)
  end.

(** foreignkey.rs:110-116 *)
Definition render_table_reference (ctx schema table : str) : str :=
  if bool_decide (schema = ctx) then table else schema ++ L "." ++ table.

(** The local variables of foreignkey.rs:25-33. *)
Record fk_state := FkState {
  fs_columns : option (list str); fs_tschema : option str; fs_ttable : option str;
  fs_tcolumns : list str; fs_deferrable : option bool; fs_initially : option bool;
  fs_match : option str; fs_update : option str; fs_delete : option str }.

(** foreignkey.rs:38-55 *)
Definition fk_step (schema : str) (st : fk_state) (cn : node) : dres fk_state :=
  let '(FkState cols ts ta tc de ini m u d) := st in
  if of_type cn (L "foreign key") then
    v ← coerce_string_varargs_value cn; Done (FkState (Some v) ts ta tc de ini m u d)
  else if of_type cn (L "references") then
    '(name, v) ← coerce_name_and_string_varargs_value cn;
    '(s, t) ← parse_table_reference schema name;
    Done (FkState cols (Some s) (Some t) v de ini m u d)
  else if of_type cn (L "deferrable") then
    v ← coerce_boolean_value cn; Done (FkState cols ts ta tc (Some v) ini m u d)
  else if of_type cn (L "initially deferred") then
    v ← coerce_boolean_value cn; Done (FkState cols ts ta tc de (Some v) m u d)
  else if of_type cn (L "match") then
    v ← coerce_string_value cn; Done (FkState cols ts ta tc de ini (Some v) u d)
  else if of_type cn (L "on update") then
    v ← coerce_string_value cn; Done (FkState cols ts ta tc de ini m (Some v) d)
  else if of_type cn (L "on delete") then
    v ← coerce_string_value cn; Done (FkState cols ts ta tc de ini m u (Some v))
  else Fail (UnexpectedNode (display_string cn)).

(** foreignkey.rs:15-99 *)
Definition parse_foreign_key_constraint_definition (schema table : str) (n : node) :
    dres foreign_key :=
  _ ← assert_that (n_type n = L "constraint");
  name ← coerce_name n;
  l ← coerce_nodes n;
  '(st, errors) ← collect (fk_step schema)
                    (FkState None None None [] None None None None None) [] l;
  let errors := push_if (is_none (fs_columns st))
                  (AttributeRequired (display_string n) (L "columns")) errors in
  let errors := push_if (is_none (fs_tschema st) || is_none (fs_ttable st) ||
                         is_empty (fs_tcolumns st))
                  (AttributeRequired (display_string n) (L "references")) errors in
  _ ← check_errors n errors;
  cols ← unwrap (fs_columns st);
  ts ← unwrap (fs_tschema st);
  ta ← unwrap (fs_ttable st);
  Done (ForeignKey schema table name cols ts ta (fs_tcolumns st)
          (default default_match (fs_match st))
          (default default_update (fs_update st))
          (default default_delete (fs_delete st))
          (default default_deferrable (fs_deferrable st))
          (default default_initially (fs_initially st))).

(** foreignkey.rs:118-151 *)
Definition render_foreign_key_constraint_definition (ctx : str) (c : foreign_key) : node :=
  with_nodes
    ([with_string_varargs_value (fk_columns c) (node_new (L "foreign key"));
      with_string_varargs_value (fk_tcolumns c)
        (with_name (render_table_reference ctx (fk_tschema c) (fk_ttable c))
           (node_new (L "references")))] ++
     render_deferral (fk_deferrable c) (fk_initially c) ++
     (if bool_decide (fk_match c <> default_match)
      then [with_string_value (fk_match c) (node_new (L "match"))] else []) ++
     (if bool_decide (fk_update c <> default_update)
      then [with_string_value (fk_update c) (node_new (L "on update"))] else []) ++
     (if bool_decide (fk_delete c <> default_delete)
      then [with_string_value (fk_delete c) (node_new (L "on delete"))] else []))
    (with_name (fk_name c) (node_new (L "constraint"))).

(** constraint.rs:20-49: every arm of the loop returns or panics, so only the first child
    is looked at. *)
Definition parse_constraint_definition (schema table : str) (n : node) : dres constraint :=
  l ← coerce_nodes n;
  match l with
  | [] => Panic
  | cn :: _ =>
      if of_type cn (L "primary key") then
        c ← parse_primary_key_definition schema table n; Done (CPrimaryKey c)
      else if of_type cn (L "unique") then
        c ← parse_unique_definition schema table n; Done (CUnique c)
      else if of_type cn (L "foreign key") then
        c ← parse_foreign_key_constraint_definition schema table n; Done (CForeignKey c)
      else if of_type cn (L "check") then
        c ← parse_check_constraint_definition schema table n; Done (CCheck c)
      else Panic
  end.

(** constraint.rs:51-58 *)
Definition render_constraint_definition (ctx : str) (c : constraint) : node :=
  match c with
  | CPrimaryKey c => render_primary_key_definition c
  | CUnique c => render_unique_definition c
  | CForeignKey c => render_foreign_key_constraint_definition ctx c
  | CCheck c => render_check_constraint_definition c
  end.

(** ** src/definition/ddl/table.rs *)

(** table.rs:27-34 *)
Definition tb_step (schema name : str) (st : list column * list constraint) (d : node) :
    dres (list column * list constraint) :=
  let '(cols, cts) := st in
  if of_type d (L "column") then
    c ← parse_column_definition schema name d; Done (cols ++ [c], cts)
  else if of_type d (L "constraint") then
    c ← parse_constraint_definition schema name d; Done (cols, cts ++ [c])
  else Fail (UnexpectedNode (display_string d)).

(** [x.f(a).unwrap()] on a mutable object. *)
Definition unwrap_mut {S : Type} (m : mut S ()) (s : S) : dres S :=
  match m s with (s', Ok _) => Done s' | (_, Err _) => Panic end.

(** [for a in l { x.f(a).unwrap(); }] *)
Fixpoint unwrap_all {S A : Type} (f : A -> mut S ()) (l : list A) (s : S) : dres S :=
  match l with
  | [] => Done s
  | a :: l => s ← unwrap_mut (f a) s; unwrap_all f l s
  end.

(** table.rs:16-53 *)
Definition parse_table_definition (schema : str) (n : node) : dres table :=
  _ ← assert_that (n_type n = L "table");
  name ← coerce_name n;
  l ← coerce_nodes n;
  '((cols, cts), errors) ← collect (tb_step schema name) ([], []) [] l;
  _ ← check_errors n errors;
  t ← unwrap_all add_column cols (table_new schema name);
  unwrap_all add_constraint cts t.

(** table.rs:55-68; [o] orders the constraints. *)
Definition render_table_definition (o : iter_order) (ctx : str) (t : table) : node :=
  with_nodes
    ((render_column_definition <$> tb_columns t) ++
     (render_constraint_definition ctx <$> iter_constraints o t))
    (with_name (tb_name t) (node_new (L "table"))).

(** ** src/definition/ddl/view.rs *)

(** view.rs:21-24 *)
Definition vw_step (st : option str) (cn : node) : dres (option str) :=
  if of_type cn (L "as") then v ← coerce_string_value cn; Done (Some v)
  else Fail (UnexpectedNode (display_string cn)).

(** view.rs:11-42 *)
Definition parse_view_definition (ctx : str) (n : node) : dres view :=
  _ ← assert_that (n_type n = L "view");
  name ← coerce_name n;
  l ← coerce_nodes n;
  '(query, errors) ← collect vw_step None [] l;
  let errors := push_if (is_none query) (AttributeRequired (display_string n) (L "as")) errors in
  _ ← check_errors n errors;
  query ← unwrap query;
  Done (View ctx name query).

(** view.rs:44-57 *)
Definition render_view_definition (ctx : str) (v : view) : dres node :=
  _ ← assert_that (vw_schema v = ctx);
  Done (with_nodes
    (if is_empty (vw_query v) then [] else [with_string_value (vw_query v) (node_new (L "as"))])
    (MkNode (L "view") (Some (vw_name v)) None)).

(** ** src/definition/ddl/index.rs *)

(** index.rs:28-37 *)
Definition ix_step (st : option str * option (list str) * option bool * option str) (cn : node) :
    dres (option str * option (list str) * option bool * option str) :=
  let '(tb, keys, uq, me) := st in
  if of_type cn (L "unique") then
    v ← coerce_boolean_value cn; Done (tb, keys, Some v, me)
  else if of_type cn (L "on") then
    '(name, v) ← coerce_name_and_string_varargs_value cn; Done (Some name, Some v, uq, me)
  else if of_type cn (L "using") then
    v ← coerce_string_value cn; Done (tb, keys, uq, Some v)
  else Fail (UnexpectedNode (display_string cn)).

(** index.rs:15-60: the errors are collected and then forgotten. *)
Definition parse_index_definition (ctx : str) (n : node) : dres index :=
  _ ← assert_that (n_type n = L "index");
  name ← coerce_name n;
  l ← coerce_nodes n;
  '((tb, keys, uq, me), _) ← collect ix_step (None, None, None, None) [] l;
  let uq := default default_unique uq in
  let me := default default_method me in
  tb ← unwrap tb;
  keys ← unwrap keys;
  Done (Index ctx name tb uq me keys).

(** index.rs:62-80 *)
Definition render_index_definition (i : index) : node :=
  with_nodes
    ((if bool_decide (ix_unique i <> default_unique)
      then [with_boolean_value (ix_unique i) (node_new (L "unique"))] else []) ++
     (if bool_decide (ix_method i <> default_method)
      then [with_string_value (ix_method i) (node_new (L "using"))] else []) ++
     [with_string_varargs_value (ix_keys i) (with_name (ix_table i) (node_new (L "on")))])
    (with_name (ix_name i) (node_new (L "index"))).

(** ** src/definition/ddl/sequence.rs *)

(** The local variables of sequence.rs:22-30. *)
Record sq_state := SqState {
  ss_type : option str; ss_increment : option Z; ss_min : option Z; ss_max : option Z;
  ss_start : option Z; ss_cache : option Z; ss_cycle : option bool;
  ss_table : option str; ss_column : option str }.

(** sequence.rs:33-47 *)
Definition sq_step (st : sq_state) (d : node) : dres sq_state :=
  let '(SqState ty inc mn mx start cache cycle ot oc) := st in
  if of_type d (L "as") then
    v ← coerce_string_value d; Done (SqState (Some v) inc mn mx start cache cycle ot oc)
  else if of_type d (L "increment") then
    v ← coerce_integer_value d; Done (SqState ty (Some v) mn mx start cache cycle ot oc)
  else if of_type d (L "minvalue") then
    v ← coerce_integer_value d; Done (SqState ty inc (Some v) mx start cache cycle ot oc)
  else if of_type d (L "maxvalue") then
    v ← coerce_integer_value d; Done (SqState ty inc mn (Some v) start cache cycle ot oc)
  else if of_type d (L "start") then
    v ← coerce_integer_value d; Done (SqState ty inc mn mx (Some v) cache cycle ot oc)
  else if of_type d (L "cache") then
    v ← coerce_integer_value d; Done (SqState ty inc mn mx start (Some v) cycle ot oc)
  else if of_type d (L "cycle") then
    v ← coerce_boolean_value d; Done (SqState ty inc mn mx start cache (Some v) ot oc)
  else if of_type d (L "owned by") then
    '(name, v) ← coerce_name_and_string_value d;
    Done (SqState ty inc mn mx start cache cycle (Some name) (Some v))
  else Fail (UnexpectedNode (display_string d)).

(** sequence.rs:15-101 *)
Definition parse_sequence_definition (ctx : str) (n : node) : dres sequence :=
  _ ← assert_that (n_type n = L "sequence");
  name ← coerce_name n;
  l ← coerce_nodes n;
  '(st, errors) ← collect sq_step
                    (SqState None None None None None None None None None) [] l;
  let ty := default default_seq_type (ss_type st) in
  let inc := default default_increment (ss_increment st) in
  mn ← match ss_min st with Some v => Done v | None => get_sequence_min_value inc ty end;
  mx ← match ss_max st with Some v => Done v | None => get_sequence_max_value inc ty end;
  let start := default (get_sequence_start inc mn mx) (ss_start st) in
  let cache := default default_cache (ss_cache st) in
  let cycle := default default_cycle (ss_cycle st) in
  _ ← check_errors n errors;
  Done (Sequence ctx name ty inc mn mx start cache cycle (ss_table st) (ss_column st)).

(** [if v != default { subnodes.push(Node::new(t).with_number_integer_value(v)) }] *)
Definition int_node (t : str) (v d : Z) : list node :=
  if bool_decide (v <> d) then [with_number_integer_value v (node_new t)] else [].

(** sequence.rs:103-138 *)
Definition render_sequence_definition (s : sequence) : dres node :=
  mn ← get_sequence_min_value (sq_increment s) (sq_type s);
  mx ← get_sequence_max_value (sq_increment s) (sq_type s);
  owned ← match sq_owned_table s with
          | Some t => c ← unwrap (sq_owned_column s);
                      Done [with_string_value c (with_name t (node_new (L "owned by")))]
          | None => Done []
          end;
  Done (with_nodes
    ((if bool_decide (sq_type s <> default_seq_type)
      then [with_string_value (sq_type s) (node_new (L "as"))] else []) ++
     int_node (L "increment") (sq_increment s) default_increment ++
     int_node (L "minvalue") (sq_min s) mn ++
     int_node (L "maxvalue") (sq_max s) mx ++
     int_node (L "start") (sq_start s)
       (get_sequence_start (sq_increment s) (sq_min s) (sq_max s)) ++
     int_node (L "cache") (sq_cache s) default_cache ++
     (if bool_decide (sq_cycle s <> default_cycle)
      then [with_boolean_value (sq_cycle s) (node_new (L "cycle"))] else []) ++ owned)
    (with_name (sq_name s) (node_new (L "sequence")))).

(** ** src/definition/ddl/function.rs *)

(** function.rs:25-31 *)
Definition fn_step (st : option str * option str * option str * option str) (cn : node) :
    dres (option str * option str * option str * option str) :=
  let '(body, lang, ret, vol) := st in
  if of_type cn (L "as") then
    v ← coerce_string_value cn; Done (Some v, lang, ret, vol)
  else if of_type cn (L "language") then
    v ← coerce_string_value cn; Done (body, Some v, ret, vol)
  else if of_type cn (L "returns") then
    v ← coerce_string_value cn; Done (body, lang, Some v, vol)
  else if of_type cn (L "volatility") then
    v ← coerce_string_value cn; Done (body, lang, ret, Some v)
  else Fail (UnexpectedNode (display_string cn)).

(** function.rs:12-61 *)
Definition parse_function_definition (ctx : str) (n : node) : dres function :=
  _ ← assert_that (n_type n = L "function");
  name ← coerce_name n;
  l ← coerce_nodes n;
  '((body, lang, ret, vol), errors) ← collect fn_step (None, None, None, None) [] l;
  let errors := push_if (is_none body) (AttributeRequired (display_string n) (L "body")) errors in
  _ ← check_errors n errors;
  body ← unwrap body;
  Done (Function ctx name body (default default_language lang) (default default_returns ret)
          (default default_volatility vol)).

(** function.rs:63-81 *)
Definition render_function_definition (f : function) : node :=
  with_nodes
    ([with_string_value (fn_body f) (node_new (L "as"))] ++
     (if bool_decide (fn_language f <> default_language)
      then [with_string_value (fn_language f) (node_new (L "language"))] else []) ++
     (if bool_decide (fn_returns f <> default_returns)
      then [with_string_value (fn_returns f) (node_new (L "returns"))] else []) ++
     (if bool_decide (fn_volatility f <> default_volatility)
      then [with_string_value (fn_volatility f) (node_new (L "volatility"))] else []))
    (with_name (fn_name f) (node_new (L "function"))).

(** ** src/definition/ddl/schema.rs *)

(** schema.rs:36-53 *)
Definition sc_step (name : str) (st : list relation * list function) (cn : node) :
    dres (list relation * list function) :=
  let '(rels, funs) := st in
  if of_type cn (L "table") then
    x ← parse_table_definition name cn; Done (rels ++ [RTable x], funs)
  else if of_type cn (L "view") then
    x ← parse_view_definition name cn; Done (rels ++ [RView x], funs)
  else if of_type cn (L "sequence") then
    x ← parse_sequence_definition name cn; Done (rels ++ [RSequence x], funs)
  else if of_type cn (L "index") then
    x ← parse_index_definition name cn; Done (rels ++ [RIndex x], funs)
  else if of_type cn (L "function") then
    x ← parse_function_definition name cn; Done (rels, funs ++ [x])
  else Fail (UnexpectedNode (display_string cn)).

(** schema.rs:23-71 *)
Definition parse_schema_definition (n : node) : dres schema :=
  _ ← assert_that (n_type n = L "schema");
  name ← coerce_name n;
  l ← coerce_nodes n;
  '((rels, funs), errors) ← collect (sc_step name) ([], []) [] l;
  _ ← check_errors n errors;
  s ← unwrap_all add_relation rels (schema_new name);
  unwrap_all add_function funs s.

(** The match of schema.rs:79-92. *)
Definition render_relation (o : iter_order) (ctx : str) (r : relation) : dres node :=
  match r with
  | RTable t => Done (render_table_definition o ctx t)
  | RView v => render_view_definition ctx v
  | RIndex i => Done (render_index_definition i)
  | RSequence s => render_sequence_definition s
  end.

(** [for x in l { subnodes.push(f(x)); }] *)
Fixpoint render_all {A : Type} (f : A -> dres node) (l : list A) : dres (list node) :=
  match l with
  | [] => Done []
  | a :: l => n ← f a; ns ← render_all f l; Done (n :: ns)
  end.

(** schema.rs:73-101 *)
Definition render_schema_definition (o : iter_order) (s : schema) : dres node :=
  rels ← render_all (render_relation o (sc_name s)) (iter_relations o s);
  Done (with_nodes (rels ++ (render_function_definition <$> iter_functions o s))
          (with_name (sc_name s) (node_new (L "schema")))).

(** ** src/definition/mod.rs *)

(** mod.rs:18-31, save_snapshot: the document written (the text written for it by
    serde_yaml and the file system are not modelled). *)
Definition save_document (o : iter_order) (d : database) : dres (list (yaml * yaml)) :=
  nodes ← render_all (render_schema_definition o) (iter_schemas o d);
  Done (render_nodes_to_mapping nodes).

(** [?] on the results of other modules. *)
Definition of_yaml {A} (r : outcome yaml_error A) : dres A :=
  match r with Done a => Done a | Fail e => Fail (Malformed e) | Panic => Panic end.
(** See [of_yaml]. *)
Definition of_mut {S : Type} (m : mut S ()) (s : S) : dres S :=
  match m s with (s', Ok _) => Done s' | (_, Err e) => Fail (Snapshot e) end.

(** The loop of mod.rs:59-67; [o] orders the maps consumed by [merge_schema]. *)
Fixpoint load_nodes (o : iter_order) (l : list node) (d : database) : dres database :=
  match l with
  | [] => Done d
  | n :: l =>
      s ← parse_schema_definition n;
      d ← of_mut (if has_schema d (sc_name s)
                  then with_schema_mut (sc_name s) (merge_schema o s)
                  else add_schema s) d;
      load_nodes o l d
  end.

(** mod.rs:53-70, load_yaml_string after the text has been read as a mapping. *)
Definition load_document (o : iter_order) (m : list (yaml * yaml)) : dres database :=
  nodes ← of_yaml (parse_mapping_to_nodes m);
  load_nodes o nodes database_new.

(** mod.rs:53-70, load_yaml_string; [read] is [serde_yaml::from_str]. An error and a panic
    both mean that no snapshot is returned. *)
Definition load_yaml_string (read : str -> option (list (yaml * yaml))) (o : iter_order) (text : str) :
    option database :=
  match read text with
  | Some m => match load_document o m with Done d => Some d | _ => None end
  | None => None
  end.
